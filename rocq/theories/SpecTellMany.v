(** The attackers of SpecTell and SpecForce in the one-of-many exchange (many_fpake.rs:434-512), with 2^d
    passwords of l bytes. *)
From Coq Require Import List NArith Bool Arith.
From Verif Require Import Base MUtil MWires MCircuit MGarble MBincode MProc MFpake SpecSteal SpecTell SpecForce.
Import ListNotations.
Open Scope N_scope.

(** As the client: any index, any guess; what it was given under the mask is part of what it ends with. *)
Definition telling_single (sha : bytes -> bytes) (p : profile) (many_ot : nat -> N -> proc bytes)
    (ot_s : list (bytes * bytes) -> proc unit) (ot_r : list bool -> proc (list bytes)) (d : nat) (index : N) (guess : bytes) (t : nat) : proc (bytes * bytes) :=
  let! masked := many_ot d index in
  let! x := lift (xor_bytes_inplace p masked guess) in
  let! k := telling_client sha p ot_s ot_r x t in
  ret (k, masked).
Definition forcing_single (p : profile) (F : garbled -> list wire -> outcome wire) (many_ot : nat -> N -> proc bytes)
    (ot_s : list (bytes * bytes) -> proc unit) (ot_r : list bool -> proc (list bytes)) (d : nat) (index : N) (guess : bytes) : proc unit :=
  let! masked := many_ot d index in
  let! x := lift (xor_bytes_inplace p masked guess) in
  forcing_client p F ot_s ot_r x.
(** As the server: it gives out zeros for every masked password. *)
Definition telling_many (sha : bytes -> bytes) (p : profile) (many_ot : nat -> list bytes -> proc unit)
    (ot_s : list (bytes * bytes) -> proc unit) (ot_r : list bool -> proc (list bytes)) (d : nat) (guess : bytes) (t : nat) : proc bytes :=
  let! _ := many_ot d (repeat (repeat 0 (length guess)) (2 ^ d)) in
  telling_server sha p ot_s ot_r guess t.

(** What the client tries once it knows the server's key: the mask each candidate would belong to. *)
Definition try_masked (sha : bytes -> bytes) (k masked key : bytes) (dictionary : list bytes) : list bytes :=
  filter (fun pw => bytes_eqb (combine_keys k (told sha (zipWith N.lxor masked pw))) key) dictionary.
