(** A receiver of the classic OT extension that leaves rows of its matrix out (C139). *)
From Coq Require Import List NArith Arith.
From Verif Require Import Base MUtil MWires MBitMatrix MBincode MProc MOt MApricot MClassic.
Import ListNotations.
Open Scope N_scope.

(** ** A dishonest peer. This program is not part of /repo. *)
(** It follows apricot_classic.rs:174-335 but sends only the first [k] rows of the matrix u. *)
Definition lazy_receiver (sha : bytes -> bytes) (gen20 gen8 : bytes -> nat -> bytes) (p : profile) (a : option arch) (k : nat)
    (cv : bytes) (bonus : list bool) (seed0 seed1 : list bytes) (bootstrap : list (bytes * bytes) -> proc unit) (choices : list bool) : proc (list bytes) :=
  let! _ := validate_properties (mkProps (length choices) apricot_name) in
  let x := choices ++ bonus in
  let! t := (let! _ := bootstrap (combine seed0 seed1) in
             let! u := lift (classic_u p (monochrome x COMP_SEC) (expand_rows gen20 (length x) seed0) (expand_rows gen20 (length x) seed1)) in
             let! _ := send (enc_rows (firstn k u)) in
             lift (transpose (expand_rows gen20 (length x) seed0))) in
  let! _ := receiver_correlation sha gen20 p a cv t x in
  receiver_de_rot sha gen8 p choices t.

(** The left process has ended with [oa] and has read all it was sent; the right one ends with [ob] once it notices. *)
Definition breaks_off {A B} (S : proc A) (R : proc B) (oa : outcome A) (ob : outcome B) : Prop :=
  exists q, reach (initial S R) (Cfg (Done oa) q [] []) /\ fst (feed q []) = ob.
