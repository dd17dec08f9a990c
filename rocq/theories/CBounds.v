(** Property C100: which frames of a peer lead to reads outside of a buffer. *)
From Coq Require Import List NArith Bool Arith Lia.
From Verif Require Import Base MUtil MWires MCircuit MGarble MPar MBincode MProc MOt MApricot MClassic MMany MFpake.
From Verif Require Import SpecWires SpecCircuit SpecGarble SpecBincode SpecOt SpecApricot SpecFpake SpecMfpake SpecHostile SpecBounds.
From Verif Require Import PHostile PBounds PBounds2 PBounds3 CCircuit CGarble COt CApricot CClassic CFpake CMfpake CFpake3.
Import ListNotations.
Open Scope N_scope.

(** The receivers of both extensions never run into undefined behaviour, whatever the sender sends; nor does the
    1-of-2^n receiver, as long as its own choice is below 2^n (C40 has larger ones). *)
Theorem C100_extension_receiver : forall sha fill gen G p a cores rs cv bonus seed0 seed1 cs ins, generator fill ->
  fst (feed (ap_receiver sha fill p a cores cv bonus seed0 seed1 (co_sender sha gen G p rs) cs) ins) <> UB.
Proof. exact ap_receiver_bounds. Qed.
Print Assumptions C100_extension_receiver.
Theorem C100_classic_receiver : forall sha gen20 gen8 gen G p a rs cv bonus seed0 seed1 cs ins,
  generator gen20 -> length seed0 = 128%nat ->
  fst (feed (classic_receiver sha gen20 gen8 p a cv bonus seed0 seed1 (co_sender sha gen G p rs) cs) ins) <> UB.
Proof. exact classic_receiver_bounds. Qed.
Print Assumptions C100_classic_receiver.
Theorem C100_many_receiver : forall sha fill gen G p p' rs choice domain ins,
  (domain < 64)%nat -> choice < 2 ^ N.of_nat domain ->
  fst (feed (many_receiver sha fill p (co_receiver sha gen G p' rs) choice domain) ins) <> UB.
Proof. exact many_receiver_bounds. Qed.
Print Assumptions C100_many_receiver.

(** The senders only do for frames that are too short: the seeds, u or x_sum (C40 shows that these bounds matter). *)
Theorem C100_extension_sender : forall sha fill gen G p a cores rs cu delta msgs ins,
  generator fill -> length delta = 16%nat -> apricot_frames (length msgs) ins ->
  fst (feed (ap_sender sha fill p a cores cu delta (co_receiver sha gen G p rs) msgs) ins) <> UB.
Proof. exact ap_sender_bounds. Qed.
Print Assumptions C100_extension_sender.
Theorem C100_classic_sender : forall sha gen20 gen8 gen G p a rs cu delta msgs ins,
  generator gen20 -> length delta = 16%nat -> classic_frames ins ->
  fst (feed (classic_sender sha gen20 gen8 p a cu delta (co_receiver sha gen G p rs) msgs) ins) <> UB.
Proof. exact classic_sender_bounds. Qed.
Print Assumptions C100_classic_sender.

(** Nor do the evaluators, if the circuit they get writes wires before it reads them (C82 has others) and, in the
    third version, the labels for the mask are all there. *)
Theorem C100_evaluator : forall sha fill gen G p a cores rs cv bonus seed0 seed1 pw ins,
  generator fill -> length seed0 = 128%nat -> length seed1 = 128%nat -> safe_circuit 133 ins ->
  fst (feed (evaluator sha p (ap_receiver sha fill p a cores cv bonus seed0 seed1 (co_sender sha gen G p rs)) pw) ins) <> UB.
Proof. exact evaluator_bounds. Qed.
Print Assumptions C100_evaluator.
Theorem C100_server_v3 : forall sha fill gen G p a cores rs cv bonus seed0 seed1 pws mask ins,
  generator fill -> length seed0 = 128%nat -> length seed1 = 128%nat ->
  safe_circuit 0 ins -> long_frame 135 (32 * (length (hd [] pws) * 8)) ins ->
  fst (feed (evaluator_server_v3 sha p (ap_receiver sha fill p a cores cv bonus seed0 seed1 (co_sender sha gen G p rs)) pws mask) ins) <> UB.
Proof. exact server_v3_bounds. Qed.
Print Assumptions C100_server_v3.

(** C100 is false: with any fewer bytes of labels, and any circuit, both roles of the third version read outside of the frame. *)
Theorem C100_server_v3_refuted : forall sha p otS otR passwords p0 mask gc short,
  ot_correct extension_ok otS otR -> nth_error passwords 0 = Some p0 -> (0 < length p0)%nat -> length mask = length p0 ->
  usize_ok (length p0 * 8) -> garbled_ok gc -> (length short < 32 * (length p0 * 8))%nat ->
  runs (stingy_client otS (length p0 * 8) gc short) (evaluator_server_v3 sha p otR passwords mask) (Ok tt) UB.
Proof. exact stingy_client_run. Qed.
Print Assumptions C100_server_v3_refuted.
Theorem C100_client_v3_refuted : forall sha p dom manyS manyR ot1S ot1R ot2S ot2R d passwords pw password index gc short,
  ot_correct extension_ok ot1S ot1R -> ot_correct extension_ok ot2S ot2R -> many_correct dom manyS manyR -> dom d ->
  password_list d (length password) passwords -> nth_error passwords (N.to_nat index) = Some pw ->
  (0 < length password)%nat -> usize_ok (length password * 8) -> garbled_ok gc ->
  (length short < 32 * (length password * 8))%nat ->
  runs (stingy_server ot1S manyS ot2S (length password * 8) d passwords gc short)
       (evaluator_client_v3 sha p ot1R manyR ot2R password (N.of_nat (2 ^ d)) index) (Ok tt) UB.
Proof. exact stingy_server_run. Qed.
Print Assumptions C100_client_v3_refuted.

(** A server with 16-bit passwords that gets 511 instead of 512 bytes, and a client that gets none. *)
Example C100_v3_example :
  runs (stingy_client (demo_sender Debug) 16 (without_table 16) (repeat 7 511))
       (evaluator_server_v3 toy Release (demo_receiver Release) [[1; 2]; [3; 4]] [5; 6]) (Ok tt) UB /\
  runs (stingy_server (demo_sender Debug) (demo_many Debug) (demo_sender Debug) 16 2 [[1; 2]; [3; 4]; [5; 6]; [7; 8]] (without_table 16) [])
       (evaluator_client_v3 toy Release (demo_receiver Release) (demo_one Release) (demo_receiver Release) [9; 9] 4 3) (Ok tt) UB.
Proof.
  split.
  - apply (C100_server_v3_refuted toy Release (demo_sender Debug) (demo_receiver Release) [[1; 2]; [3; 4]] [1; 2]);
      [apply demo_OT|reflexivity|cbn; lia|reflexivity|reflexivity|apply without_table_ok; reflexivity|rewrite repeat_length; cbn; lia].
  - apply (C100_client_v3_refuted toy Release (fun d => d = 2%nat) (demo_many Debug) (demo_one Release) (demo_sender Debug) (demo_receiver Release)
      (demo_sender Debug) (demo_receiver Release) 2 [[1; 2]; [3; 4]; [5; 6]; [7; 8]] [7; 8] [9; 9] 3 (without_table 16) []);
      [apply demo_OT|apply demo_OT|apply demo_many_ok|reflexivity| |reflexivity|cbn; lia|reflexivity|apply without_table_ok; reflexivity|cbn; lia].
    split; [lia|]. split; [reflexivity|]. repeat constructor.
Qed.
(** Frames that are long enough, and too short ones; both can be sent. *)
Example C100_frames_example : let frames k x := repeat (repeat 0 32) 132 ++ [enc_payload [(repeat 1 32, repeat 2 33)]; repeat 0 k; repeat 0 x] in
  apricot_frames 8 (frames 4224%nat 16%nat) /\ ~ apricot_frames 8 (frames 4223%nat 16%nat) /\ ~ apricot_frames 8 (frames 4224%nat 15%nat) /\
  classic_frames (repeat [] 134 ++ [enc_bytes (repeat 3 16)]) /\ ~ classic_frames (repeat [] 134 ++ [enc_bytes (repeat 3 15)]).
Proof.
  cbv zeta. split; [|split; [|split; [|split]]].
  - split; [|split].
    + intros m pay Hm Hp. vm_compute in Hm. injection Hm as <-. vm_compute in Hp. injection Hp as <-. intros c0 c1 [E|[]]. injection E as <- <-. vm_compute. lia.
    + intros m Hm. rewrite nth_error_app2 in Hm by (rewrite repeat_length; lia). rewrite repeat_length in Hm. apply (f_equal (option_map (@length N))) in Hm. cbn [Nat.sub nth_error option_map] in Hm. rewrite repeat_length in Hm. injection Hm as E. rewrite <- E. apply Nat.leb_le. vm_compute. reflexivity.
    + intros m Hm. rewrite nth_error_app2 in Hm by (rewrite repeat_length; lia). rewrite repeat_length in Hm. apply (f_equal (option_map (@length N))) in Hm. cbn [Nat.sub nth_error option_map] in Hm. rewrite repeat_length in Hm. injection Hm as E. lia.
  - intros (_ & H & _). specialize (H (repeat 0 4223)). rewrite nth_error_app2 in H by (rewrite repeat_length; lia). rewrite !repeat_length in H.
    specialize (H eq_refl). apply Nat.leb_le in H. vm_compute in H. discriminate.
  - intros (_ & _ & H). specialize (H (repeat 0 15)). rewrite nth_error_app2 in H by (rewrite repeat_length; lia). rewrite !repeat_length in H.
    specialize (H eq_refl). lia.
  - intros m v Hm Hv. vm_compute in Hm. injection Hm as <-. vm_compute in Hv. injection Hv as <-. vm_compute. lia.
  - intros H. specialize (H (enc_bytes (repeat 3 15)) (repeat 3 15) eq_refl ltac:(vm_compute; reflexivity)). vm_compute in H. lia.
Qed.
