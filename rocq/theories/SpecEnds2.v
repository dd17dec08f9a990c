(** Well-formed messages to the receiver of the OT extension. *)
From Coq Require Import List NArith Arith.
From Verif Require Import Base MBincode MProc MOt MApricot SpecEnds.
Import ListNotations.
Open Scope N_scope.

(** A frame that announces an OT extension of [n] pairs. *)
Definition greets (n : nat) (m : bytes) : Prop := deserialize dec_props m = Ok (mkProps n apricot_name).
(** A frame that announces messages of [s] bytes. *)
Definition announces (m : bytes) (s : nat) : Prop := exists b0 b1 l, m = b0 :: b1 :: l /\ N.of_nat s = 256 * b0 + b1.
(** The size of the messages according to the last frame, which holds [n] pairs of them. *)
Definition carried (n : nat) (d : bytes) : nat := (length d / 2 / n)%nat.
(** Sizes a build accepts. *)
Definition accepts (p : profile) (announced received : nat) : Prop :=
  match p with Debug => received = announced | Release => (received <= announced)%nat end.
(** The frames up to the announced size. *)
Definition opened (n : nat) (ins : list bytes) (sz : bytes) (l : list bytes) : Prop :=
  exists m u, ins = m :: u :: sz :: l /\ greets n m /\ length u = 32%nat.
(** And up to the end of the base OT of 128 pairs. *)
Definition seeded (G : curve) (n : nat) (ins : list bytes) (s : nat) (l : list bytes) : Prop :=
  exists sz b l', opened n ins sz (b :: l') /\ announces sz s /\ agrees 128 b /\ points G 128 l' /\ l = skipn 128 l'.
