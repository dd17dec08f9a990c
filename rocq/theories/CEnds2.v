(** Property C124: how the OT extension's receiver and the coin flip end for hostile peers. *)
From Coq Require Import List NArith Arith Lia.
From Verif Require Import Base MBincode MProc MOt MApricot SpecBincode SpecOt SpecApricot PBase SpecEnds PEnds SpecEnds2 PEnds2 CCircuit COt.
Import ListNotations.
Open Scope N_scope.

(** C124 is false.  After the agreement and a coin flip an announced size of fewer than two bytes panics. *)
Theorem C124_announced_size_refuted : forall sha fill gen G p a cores cv bonus seed0 seed1 rs cs,
  p = Release \/ (length cs mod 8 = 0)%nat -> forall ins sz l, opened (length cs) ins sz l -> (length sz < 2)%nat ->
  crashes (fst (feed (ap_receiver sha fill p a cores cv bonus seed0 seed1 (co_sender sha gen G p rs) cs) ins)).
Proof. exact opened_crash. Qed.
Print Assumptions C124_announced_size_refuted.

(** And in release an empty last frame counts: the receiver returns one message of the announced size for each choice. *)
Theorem C124_empty_last_frame_refuted : forall sha fill gen G a cores cv bonus seed0 seed1 rs cs ins s l,
  hash32 sha -> generator fill -> generator gen -> curve_ok G -> (1 <= cores)%nat ->
  length bonus = 256%nat -> seeds_ok seed0 -> seeds_ok seed1 -> (1 <= length cs)%nat -> Forall bytes_ok ins ->
  seeded G (length cs) ins s ([] :: l) ->
  exists out, fst (feed (ap_receiver sha fill Release a cores cv bonus seed0 seed1 (co_sender sha gen G Release rs) cs) ins) = Ok out /\
    length out = length cs /\ Forall (fun y => length y = s) out.
Proof. exact empty_last_frame. Qed.
Print Assumptions C124_empty_last_frame_refuted.

(** For any frames of the peer, [n] choices and 128 base OTs: a value exactly if the peer agrees to [n], sends 32 bytes
    for the coin flip, two bytes of size, agrees to 128, sends 128 points and a last frame of an accepted size.
    A panic exactly for a short announcement, a frame that is no point, or a last frame of another size.
    An error exactly if the conversation stops or disagrees at one of the other steps. *)
Theorem C124_receiver_ends : forall sha fill gen G, hash32 sha -> generator fill -> generator gen -> curve_ok G ->
  forall p a cores, (1 <= cores)%nat -> forall cv bonus seed0 seed1 rs, length bonus = 256%nat -> seeds_ok seed0 -> seeds_ok seed1 ->
  forall cs, (1 <= length cs)%nat -> p = Release \/ (length cs mod 8 = 0)%nat -> forall ins, Forall bytes_ok ins ->
  let n := length cs in
  let o := fst (feed (ap_receiver sha fill p a cores cv bonus seed0 seed1 (co_sender sha gen G p rs) cs) ins) in
  (succeeds o <-> exists s d l, seeded G n ins s (d :: l) /\ accepts p s (carried n d)) /\
  (crashes o <-> (exists sz l, opened n ins sz l /\ (length sz < 2)%nat) \/
     (exists sz b l s, opened n ins sz (b :: l) /\ announces sz s /\ agrees 128 b /\ ~ points G 128 l) \/
     (exists s d l, seeded G n ins s (d :: l) /\ ~ accepts p s (carried n d))) /\
  (fails o <-> (forall sz l, ~ opened n ins sz l) \/
     (exists sz l s, opened n ins sz l /\ announces sz s /\ ~ exists b l', l = b :: l' /\ agrees 128 b) \/
     (exists s, seeded G n ins s [])) /\
  o <> UB.
Proof. intros. now apply ap_receiver_ends. Qed.
Print Assumptions C124_receiver_ends.

(** The messages returned have the announced size, whatever the last frame holds. *)
Theorem C124_sizes : forall sha fill gen G, hash32 sha -> generator fill -> generator gen -> curve_ok G ->
  forall p a cores, (1 <= cores)%nat -> forall cv bonus seed0 seed1 rs, length bonus = 256%nat -> seeds_ok seed0 -> seeds_ok seed1 ->
  forall cs, (1 <= length cs)%nat -> p = Release \/ (length cs mod 8 = 0)%nat -> forall ins out, Forall bytes_ok ins ->
  fst (feed (ap_receiver sha fill p a cores cv bonus seed0 seed1 (co_sender sha gen G p rs) cs) ins) = Ok out ->
  exists s d l, seeded G (length cs) ins s (d :: l) /\ accepts p s (carried (length cs) d) /\
    length out = length cs /\ Forall (fun y => length y = s) out.
Proof. exact ap_receiver_sizes. Qed.
Print Assumptions C124_sizes.

(** Both roles of the coin flip end with a value or an error, and with a value exactly for an array of the right
    length that fits the commitment. *)
Theorem C124_coin_flip_ends : forall sha n mine ins,
  (let o := fst (feed (coinflip_sender sha n mine) ins) in
   (succeeds o <-> exists u l, ins = u :: l /\ length u = n) /\ (fails o <-> ~ exists u l, ins = u :: l /\ length u = n) /\
   (succeeds o \/ fails o)) /\
  (let o := fst (feed (coinflip_receiver sha n mine) ins) in
   (succeeds o <-> exists v l, ins = sha v :: v :: l /\ length v = n) /\
   (fails o <-> ~ exists v l, ins = sha v :: v :: l /\ length v = n) /\ (succeeds o \/ fails o)).
Proof. intros. split; [apply coin_sender_ends|apply coin_receiver_ends]. Qed.
Print Assumptions C124_coin_flip_ends.

(** Frames that come up to the last one, with an empty last frame. *)
Definition seeded_frames : list bytes :=
  enc_props (mkProps 8 apricot_name) :: repeat 0 32 :: [0; 3] :: enc_props (mkProps 128 chou_orlandi) :: repeat (repeat 0 32) 128 ++ [[]].
Lemma repeat_bytes x k : x < 256 -> bytes_ok (repeat x k).
Proof. intros H. apply Forall_forall. intros y Hy. apply repeat_spec in Hy. now subst. Qed.
Lemma seeded_frames_ok : Forall bytes_ok seeded_frames.
Proof.
  unfold seeded_frames. do 4 (apply Forall_cons; [first [now apply repeat_bytes|repeat constructor]|]).
  apply Forall_app. split; [|repeat constructor]. apply Forall_forall. intros y Hy. apply repeat_spec in Hy. subst. now apply repeat_bytes.
Qed.
Lemma seeded_frames_to l : let ins := firstn 132 seeded_frames ++ l in seeded toy_curve 8 ins 3 l.
Proof.
  exists [0; 3], (enc_props (mkProps 128 chou_orlandi)), (repeat (repeat 0 32) 128 ++ l). split; [|split; [|split; [|split]]].
  - do 2 eexists. split; [reflexivity|]. split; reflexivity.
  - exists 0, 3, []. split; reflexivity.
  - reflexivity.
  - split; [rewrite app_length, repeat_length; lia|]. rewrite firstn_app, repeat_length, Nat.sub_diag. change (firstn 0 l) with (@nil bytes). rewrite app_nil_r, firstn_all2 by (now rewrite repeat_length).
    apply Forall_forall. intros y Hy. apply repeat_spec in Hy. subst. split; [reflexivity|]. vm_compute. discriminate.
  - rewrite skipn_app, repeat_length, Nat.sub_diag, skipn_all2 by (now rewrite repeat_length). reflexivity.
Qed.
Example C124_case : let cs := repeat true 8 in let seeds := repeat (repeat 0 32) 128 in
  Forall bytes_ok seeded_frames /\ seeded toy_curve 8 seeded_frames 3 [[]] /\ accepts Release 3 (carried 8 []) /\ ~ accepts Debug 3 (carried 8 []) /\
  let run p ins := fst (feed (ap_receiver toy toy_gen p X86 4 (repeat 1 32) (repeat true 256) seeds seeds (co_sender toy toy_gen toy_curve p (fun _ => 1)) cs) ins) in
  succeeds (run Release seeded_frames) /\ crashes (run Debug seeded_frames) /\ fails (run Release (firstn 132 seeded_frames)) /\
  opened 8 (firstn 2 seeded_frames ++ [[7]]) [7] [] /\ crashes (run Debug (firstn 2 seeded_frames ++ [[7]])).
Proof.
  intros cs seeds.
  assert (Sd : seeded toy_curve 8 seeded_frames 3 [[]]) by exact (seeded_frames_to [[]]).
  assert (Sn : seeded toy_curve 8 (firstn 132 seeded_frames) 3 []).
  { pose proof (seeded_frames_to []) as K. cbv zeta in K. now rewrite app_nil_r in K. }
  assert (Ar : accepts Release 3 (carried 8 [])) by (cbn; lia). assert (Ad : ~ accepts Debug 3 (carried 8 [])) by (cbn; lia).
  assert (O : opened 8 (firstn 2 seeded_frames ++ [[7]]) [7] []) by (do 2 eexists; split; [reflexivity|split; reflexivity]).
  assert (So : seeds_ok seeds).
  { split; [apply repeat_length|]. apply Forall_forall. intros y Hy. apply repeat_spec in Hy. subst. split; [reflexivity|now apply repeat_bytes]. }
  assert (Fn : Forall bytes_ok (firstn 132 seeded_frames)).
  { apply Forall_forall. intros y Hy. apply (proj1 (Forall_forall _ _) seeded_frames_ok). rewrite <- (firstn_skipn 132). apply in_or_app. now left. }
  pose proof (fun p n8 => C124_receiver_ends toy toy_gen toy_gen toy_curve toy_hash32 toy_gen_ok toy_gen_ok toy_curve_ok p X86 4%nat ltac:(lia) (repeat 1 32) (repeat true 256) seeds seeds (fun _ => 1)
    (repeat_length _ _) So So cs ltac:(unfold cs; rewrite repeat_length; lia) n8) as Ends.
  unfold cs in *. rewrite repeat_length in Ends.
  split; [exact seeded_frames_ok|]. split; [exact Sd|]. split; [exact Ar|]. split; [exact Ad|]. cbv zeta.
  split; [|split; [|split; [|split]]].
  - apply (Ends Release ltac:(now left) _ seeded_frames_ok). eauto.
  - apply (Ends Debug ltac:(now right) _ seeded_frames_ok). right; right. eauto 6.
  - apply (Ends Release ltac:(now left) _ Fn). right; right. eauto.
  - exact O.
  - apply (C124_announced_size_refuted toy toy_gen toy_gen toy_curve Debug X86 4%nat (repeat 1 32) (repeat true 256) seeds seeds (fun _ => 1) (repeat true 8) ltac:(now right) _ _ _ O). cbn. lia.
Qed.
