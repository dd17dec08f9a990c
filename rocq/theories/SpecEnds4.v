(** Well-formed messages to the receiver of the classic OT extension. *)
From Coq Require Import List NArith Arith.
From Verif Require Import Base MBincode MProc MOt MApricot SpecEnds SpecEnds2.
Import ListNotations.
Open Scope N_scope.

(** The first two frames agree to an extension of [n] pairs and to a base OT of 128; the frames [l] follow. *)
Definition hailed (n : nat) (ins l : list bytes) : Prop := exists m b, ins = m :: b :: l /\ greets n m /\ agrees 128 b.
(** The peer has also sent 128 points; the frames [l] follow. *)
Definition bootstrapped (G : curve) (n : nat) (ins l : list bytes) : Prop :=
  exists l', hailed n ins l' /\ points G 128 l' /\ l = skipn 128 l'.
(** 32 bytes for the coin flip, and two frames that hold the lists [d0] and [d1]. *)
Definition finished (l : list bytes) (d0 d1 : list bytes) : Prop :=
  exists u m0 m1 l', l = u :: m0 :: m1 :: l' /\ length u = 32%nat /\ deserialize dec_rows m0 = Ok d0 /\ deserialize dec_rows m1 = Ok d1.
