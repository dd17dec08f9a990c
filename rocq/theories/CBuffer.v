(** C89: the buffer that a worker of the OT extension carries from row to row does not matter. *)
From Coq Require Import List NArith Bool Lia Arith.
From Verif Require Import Base MUtil MWires MBitMatrix MPar MApricot MBuffer SpecUtil PBase PUtil PBitMatrix PBuffer CCircuit COt.
Import ListNotations.
Open Scope N_scope.

(** [zero_inplace] is meant to clear the buffer; it clears nothing but zeros. *)
Theorem C89_zero_inplace_clears_refuted : forall v, zero_inplace v = repeat 0 (length v) -> v = repeat 0 (length v).
Proof. intros v. now rewrite zero_inplace_id. Qed.
Print Assumptions C89_zero_inplace_clears_refuted.
Example C89_not_cleared : zero_inplace [0; 7; 255] <> [0; 0; 0].
Proof. discriminate. Qed.

(** Nevertheless every worker produces what it would with a fresh buffer for each row, for all arguments: also when it panics. *)
Theorem C89_buffer_is_harmless : forall sha fill p cores q delta w s msg,
  randomize_buf sha fill p cores q delta w s msg = randomize sha fill p cores q delta w s msg.
Proof. exact randomize_buf_ok. Qed.
Print Assumptions C89_buffer_is_harmless.

(** Three rows, three workers and then one: the buffer of the only worker is dirty from the second row on. *)
Example C89_example :
  let msg := [([1; 2], [3; 4]); ([5; 6], [7; 8]); ([9; 10], [11; 12])] in
  let q := map N.of_nat (seq 0 48) in
  randomize_buf toy toy_gen Debug 1 q (repeat 5 16) 16 2 msg = randomize_buf toy toy_gen Debug 12 q (repeat 5 16) 16 2 msg /\
  exists d, randomize_buf toy toy_gen Debug 1 q (repeat 5 16) 16 2 msg = Ok d /\ length d = 12%nat.
Proof. split; [vm_compute; reflexivity|]. eexists. split; [vm_compute; reflexivity|reflexivity]. Qed.

(** The choices of the base OT are the bits of delta, and packing them again gives delta. *)
Theorem C89_unpack_bits : forall b,
  length (unpack_bits_to_vec b) = (8 * length b)%nat /\
  (forall j, (j < 8 * length b)%nat -> nth j (unpack_bits_to_vec b) false = bit_of b j) /\
  (bytes_ok b -> pack_choices (unpack_bits_to_vec b) = b).
Proof.
  intros b. split; [rewrite unpack_ok; apply bits_length|]. split; [|apply pack_unpack].
  intros j Hj. rewrite unpack_ok. now apply bits_nth.
Qed.
Print Assumptions C89_unpack_bits.
Example C89_unpack_example : unpack_bits_to_vec [5; 128] =
  [true; false; true; false; false; false; false; false; false; false; false; false; false; false; false; true].
Proof. reflexivity. Qed.
