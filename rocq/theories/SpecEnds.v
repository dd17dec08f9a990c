(** How a function ends, and well-formed messages of the base OT. *)
From Coq Require Import List NArith.
From Verif Require Import Base MBincode MProc MOt.
Import ListNotations.
Open Scope N_scope.

Definition succeeds {A} (o : outcome A) : Prop := exists a, o = Ok a.
Definition fails {A} (o : outcome A) : Prop := exists e, o = Err e.
Definition crashes {A} (o : outcome A) : Prop := exists r, o = Panic r.

(** A frame that announces a base OT of [n] pairs. *)
Definition agrees (n : nat) (m : bytes) : Prop := deserialize dec_props m = Ok (mkProps n chou_orlandi).
(** A frame that holds a point of the curve. *)
Definition point_frame (G : curve) (m : bytes) : Prop := length m = 32%nat /\ decompress G m <> None.
(** There are at least [n] frames and the first [n] hold points. *)
Definition points (G : curve) (n : nat) (l : list bytes) : Prop :=
  (n <= length l)%nat /\ Forall (point_frame G) (firstn n l).

(** The receiver's last frame: a list of at most [n] pairs of ciphertexts, a longer list, or no list. *)
Definition fitting (n : nat) (l : list bytes) : Prop :=
  exists m rest pay, l = m :: rest /\ deserialize dec_payload m = Ok pay /\ (length pay <= n)%nat.
Definition excess (n : nat) (l : list bytes) : Prop :=
  exists m rest pay, l = m :: rest /\ deserialize dec_payload m = Ok pay /\ (n < length pay)%nat.
Definition unreadable (l : list bytes) : Prop :=
  l = [] \/ exists m rest, l = m :: rest /\ fails (deserialize dec_payload m).
