(** Property C10, second part: labels of modulus 0 in release builds. *)
From Coq Require Import List NArith.
From Verif Require Import Base MWires SpecWires0 PWires0.
Import ListNotations.
Open Scope N_scope.

(** Without the debug assertion the operators work: they are componentwise arithmetic modulo 65536. *)
Theorem C10_modulus_zero_release : forall a b k, word_label a -> word_label b -> k < 65536 ->
  holds_words (wadd Release a b) (fun i => (word a i + word b i) mod 65536) /\
  holds_words (wsub Release a b) (fun i => (word a i + (65536 - word b i)) mod 65536) /\
  holds_words (wneg Release a) (fun i => (65536 - word a i) mod 65536) /\
  holds_words (wmul Release a k) (fun i => (k * word a i) mod 65536).
Proof. exact release_words. Qed.
Example C10_release_case : exists w, wire_new 0 (repeat 200 32) = Ok w /\ word_label w /\ word w 3 = 51400.
Proof. eexists; split; [vm_compute; reflexivity|]. repeat split. repeat constructor. Qed.
Print Assumptions C10_modulus_zero_release.
