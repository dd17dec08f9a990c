(** C92: who can influence the coin flip. *)
From Coq Require Import List NArith Bool Lia Arith.
From Verif Require Import Base MUtil MBincode MProc MOt SpecBincode SpecOt SpecUtil SpecCoin PBase PUtil PBincode PProc POt POtHide COt.
Import ListNotations.
Open Scope N_scope.

Lemma exchanged_l x y sha : exchanged x y sha y = sha x.
Proof.
  unfold exchanged. destruct (list_eq_dec N.eq_dec y x) as [E|_]; [now rewrite E|]. now destruct (list_eq_dec N.eq_dec y y).
Qed.
Lemma exchanged_r x y sha : exchanged x y sha x = sha y.
Proof. unfold exchanged. now destruct (list_eq_dec N.eq_dec x x). Qed.

(** Exchanging two values is undone by doing it again, and changes nothing else: it is a permutation of the hash functions. *)
Theorem C92_exchange_undoes : forall x y sha, (forall z, exchanged x y (exchanged x y sha) z = sha z) /\
  (forall z, z <> x -> z <> y -> exchanged x y sha z = sha z) /\ (hash32 sha -> hash32 (exchanged x y sha)).
Proof.
  intros x y sha. split; [|split].
  - intros z. unfold exchanged at 1. destruct (list_eq_dec N.eq_dec z x) as [->|Nx]; [apply exchanged_l|].
    destruct (list_eq_dec N.eq_dec z y) as [->|Ny]; [apply exchanged_r|]. unfold exchanged.
    destruct (list_eq_dec N.eq_dec z x); [congruence|]. destruct (list_eq_dec N.eq_dec z y); congruence.
  - intros z Nx Ny. unfold exchanged. destruct (list_eq_dec N.eq_dec z x); [congruence|]. destruct (list_eq_dec N.eq_dec z y); congruence.
  - intros H z. unfold exchanged. destruct (list_eq_dec N.eq_dec z x); [apply H|]. destruct (list_eq_dec N.eq_dec z y); apply H.
Qed.
Print Assumptions C92_exchange_undoes.

(** C92: a receiver cannot steer the result, even if it picks its bytes after it has seen the commitment.  Take any such
    receiver, any bytes of the sender, and any result [w]: there are other bytes [v'] of the sender such that, unless the
    receiver opens the commitment, it sees the same commitment, sends the same bytes, and the result is [w]. *)
Theorem C92_receiver_cannot_steer : forall choose sha n v w, array_ok n v -> array_ok n w -> array_ok n (choose sha (sha v)) ->
  exists v', is_xor w (choose sha (sha v)) v' /\ array_ok n v' /\
    (does_not_open choose sha v v' ->
      let sha' := exchanged v v' sha in
      sha' v' = sha v /\
      runs (coinflip_sender sha' n v') (late_receiver choose sha' n) (Ok w) (Ok w)).
Proof.
  intros choose sha n v w [Lv Bv] [Lw Bw] [Lc Bc]. set (u := choose sha (sha v)) in *.
  exists (zipWith N.lxor w u). split; [apply zipWith_xor_spec; congruence|].
  assert (Lv' : length (zipWith N.lxor w u) = n) by (rewrite zipWith_length; lia).
  split; [split; [exact Lv'|now apply xor_bytes_okay]|]. intros H sha'. set (v' := zipWith N.lxor w u) in *.
  assert (C : sha' v' = sha v) by apply exchanged_l. split; [exact C|].
  assert (U : choose sha' (sha' v') = u) by (rewrite C; exact H).
  assert (X' : xor_arrays v' u = w) by (unfold xor_arrays, v'; apply zipWith_xor_twice; congruence).
  assert (X : xor_arrays u v' = w) by (etransitivity; [|exact X']; unfold xor_arrays; apply zipWith_comm, N.lxor_comm).
  unfold coinflip_sender, late_receiver. apply runs_snd_rcv. cbn [pbind ret]. rewrite U.
  apply runs_flip, runs_snd_rcv. cbn [pbind ret]. rewrite Lc, Nat.eqb_refl. cbn [negb].
  apply runs_flip, runs_snd_rcv. cbn [pbind ret]. rewrite X, X'. apply runs_ret.
Qed.
Print Assumptions C92_receiver_cannot_steer.

(** C92 is false for senders: they see the result first, and one that hangs up can exclude any set of results. *)
Theorem C92_sender_cannot_steer_refuted : forall bad sha n v u, length v = n -> length u = n ->
  (bad (xor_arrays v u) = false -> runs (picky_sender bad sha n v) (coinflip_receiver sha n u) (Ok (xor_arrays v u)) (Ok (xor_arrays v u))) /\
  (forall ins out o, feed (picky_sender bad sha n v) (u :: ins) = (o, out) ->
     o = Ok (xor_arrays v u) /\
     forall w, fst (feed (coinflip_receiver sha n u) out) = Ok w -> bad w = false).
Proof.
  intros bad sha n v u Lv Lu. split.
  - intros Hb. unfold picky_sender, coinflip_receiver. apply runs_snd_rcv. cbn [pbind ret].
    apply runs_flip, runs_snd_rcv. cbn [pbind ret]. rewrite Hb.
    apply runs_flip, runs_snd_rcv. cbn [pbind ret]. rewrite Lv, Nat.eqb_refl, bytes_eqb_refl. cbn [negb].
    replace (xor_arrays u v) with (xor_arrays v u) by (unfold xor_arrays; apply zipWith_comm, N.lxor_comm). apply runs_ret.
  - intros ins out o F. cbn in F. destruct (bad (xor_arrays v u)) eqn:Hb; cbn in F; injection F as <- <-; (split; [reflexivity|]).
    + cbn. discriminate.
    + intros w. rewrite coinflip_receiver_feed, Lv, Nat.eqb_refl, bytes_eqb_refl. intros [= <-].
      replace (xor_arrays u v) with (xor_arrays v u) by (unfold xor_arrays; apply zipWith_comm, N.lxor_comm). exact Hb.
Qed.
Print Assumptions C92_sender_cannot_steer_refuted.

(** A receiver that always picks zeros, and a sender that wants an even first byte. *)
Example C92_example : forall sha,
  (exists v', v' = [5; 6] /\ let sha' := exchanged [1; 2] v' sha in
    runs (coinflip_sender sha' 2 v') (late_receiver (fun _ _ => [0; 0]) sha' 2) (Ok [5; 6]) (Ok [5; 6])) /\
  fst (feed (coinflip_receiver sha 2 [3; 255]) (snd (feed (picky_sender (fun w => N.odd (hd 0 w)) sha 2 [0; 0]) [[3; 255]]))) = Err EClosed.
Proof.
  intros sha. split; [|reflexivity].
  destruct (C92_receiver_cannot_steer (fun _ _ => [0; 0]) sha 2 [1; 2] [5; 6]) as (v' & X & L & H);
    [split; [reflexivity|repeat constructor]|split; [reflexivity|repeat constructor]|split; [reflexivity|repeat constructor]|].
  exists v'. split; [|now apply H].
  destruct L as [L _]. destruct X as (_ & X). destruct v' as [|x [|y [|]]]; try discriminate.
  pose proof (X 0%nat) as X0. pose proof (X 1%nat) as X1. cbn in X0, X1. rewrite X0, X1 by lia. reflexivity.
Qed.
