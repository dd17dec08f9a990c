(** Property C96: how the base OT ends for hostile peers. *)
From Coq Require Import List NArith.
From Verif Require Import Base MBincode MProc MOt SpecBincode SpecOt SpecEnds PEnds CCircuit COt.
Import ListNotations.
Open Scope N_scope.

(** C96 is false: after the negotiation a first frame of any length other than 32 makes both sides panic. *)
Theorem C96_frame_length_refuted : forall sha gen G p rs msgs cs m x l, length x <> 32%nat ->
  (msgs <> [] -> agrees (length msgs) m -> fst (feed (co_sender sha gen G p rs msgs) (m :: x :: l)) = Panic PSlice) /\
  (cs <> [] -> agrees (length cs) m -> fst (feed (co_receiver sha gen G p rs cs) (m :: x :: l)) = Panic PSlice).
Proof. exact co_bad_length. Qed.
Print Assumptions C96_frame_length_refuted.

(** For any frames of the peer: the sender ends with a value exactly if the peer agrees to the number of
    pairs and then sends one point per pair; without an agreement it returns an error; otherwise it panics. *)
Theorem C96_sender_ends : forall sha gen G, generator gen -> curve_ok G -> forall p rs msgs ins,
  let n := length msgs in
  let o := fst (feed (co_sender sha gen G p rs msgs) ins) in
  (succeeds o <-> exists m l, ins = m :: l /\ agrees n m /\ points G n l) /\
  (crashes o <-> exists m l, ins = m :: l /\ agrees n m /\ ~ points G n l) /\
  (fails o <-> ~ exists m l, ins = m :: l /\ agrees n m) /\
  o <> UB.
Proof. exact co_sender_ends. Qed.
Print Assumptions C96_sender_ends.

(** The receiver in addition needs a readable list of at most as many pairs of ciphertexts as it has choices.
    An unreadable or missing list is an error, a longer one a panic. *)
Theorem C96_receiver_ends : forall sha gen G, generator gen -> forall p rs cs ins,
  let n := length cs in
  let o := fst (feed (co_receiver sha gen G p rs cs) ins) in
  (succeeds o <-> exists m l, ins = m :: l /\ agrees n m /\ points G n l /\ fitting n (skipn n l)) /\
  (crashes o <-> exists m l, ins = m :: l /\ agrees n m /\ (points G n l -> excess n (skipn n l))) /\
  (fails o <-> forall m l, ins = m :: l -> agrees n m -> points G n l /\ unreadable (skipn n l)) /\
  o <> UB.
Proof. exact co_receiver_ends. Qed.
Print Assumptions C96_receiver_ends.

(** The three endings of a receiver of one message. *)
Example C96_case : let hello := enc_props (mkProps 1 chou_orlandi) in
  let end_ ins := fst (feed (co_receiver toy toy_gen toy_curve Release (fun _ => 1) [true]) ins) in
  agrees 1 hello /\ generator toy_gen /\ curve_ok toy_curve /\
  end_ [hello; [1; 2; 3]] = Panic PSlice /\ crashes (end_ [hello; [1; 2; 3]]) /\
  fails (end_ [hello; repeat 0 32; [9]]) /\
  succeeds (end_ [hello; repeat 0 32; enc_payload [([1], [2])]]) /\
  crashes (end_ [hello; repeat 0 32; enc_payload [([1], [2]); ([3], [4])]]).
Proof.
  repeat split; try apply toy_gen_ok; try apply toy_curve_ok; try (vm_compute; reflexivity); eexists; vm_compute; reflexivity.
Qed.
