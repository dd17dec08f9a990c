(** C88: the weights of the extra rows span almost always. *)
From Coq Require Import List NArith Bool Lia Arith.
From Verif Require Import Base MUtil SpecUtil SpecOt SpecHide PBase PHide PLinDep PSpan CHide CApricot.
Import ListNotations.
Open Scope N_scope.

(** C84, C85 and C87 assume that the weights of the extra rows span.  Strings of [8 q] weights (of 16 bytes each) that do
    not can be written as strings that are [q - 16] bytes shorter, without loss: so they are at most one in
    [2 ^ (8 q - 128)] of all strings.  Apricot has 256 extra rows: at most one in [2 ^ 128]. *)
Theorem C88_few_weights_do_not_span : forall q, exists (enc dec : bytes -> bytes), forall chi,
  length chi = (16 * (8 * q))%nat -> bytes_ok chi -> ~ spans (8 * q) chi ->
  array_ok (127 * q + 16) (enc chi) /\ dec (enc chi) = chi.
Proof. intros q. exists (shorten (8 * q) (127 * q + 16)), (lengthen (8 * q)). exact (lengthen_shorten q). Qed.
Print Assumptions C88_few_weights_do_not_span.

Theorem C88_apricot_weights_span : exists (enc dec : bytes -> bytes), forall chi,
  array_ok 4096 chi -> ~ spans 256 chi -> array_ok (4096 - 16) (enc chi) /\ dec (enc chi) = chi.
Proof.
  exists (shorten (8 * 32) (127 * 32 + 16)), (lengthen (8 * 32)). intros chi [L B] Ns.
  exact (lengthen_shorten 32 chi L B Ns).
Qed.
Print Assumptions C88_apricot_weights_span.

(** Whether weights span can be decided. *)
Theorem C88_spanning_decidable : forall n chi, length chi = (16 * n)%nat -> bytes_ok chi -> spans n chi \/ ~ spans n chi.
Proof. exact spans_dec. Qed.
Print Assumptions C88_spanning_decidable.

(** Both kinds exist. *)
Example C88_zeros_do_not_span : ~ spans 256 (repeat 0 4096).
Proof.
  intros H. destruct (H 1 ltac:(reflexivity)) as (b & _ & E).
  assert (Z : forall b n, weighted b (repeat 0 n) = 0).
  { clear. induction b as [|x b IH]; intros n; [reflexivity|]. cbn [weighted].
    assert (F : firstn 16 (repeat 0 n) = repeat 0 (min 16 n)).
    { clear. revert n. generalize 16%nat. induction n as [|m IH]; intros [|n]; cbn [firstn repeat min]; try reflexivity. now rewrite IH. }
    assert (S : skipn 16 (repeat 0 n) = repeat 0 (n - 16)).
    { clear. revert n. generalize 16%nat. induction n as [|m IH]; intros [|n]; cbn [skipn repeat Nat.sub]; try reflexivity. apply IH. }
    rewrite F, S, IH. rewrite N.lxor_0_r. destruct x; [|reflexivity]. clear. generalize (min 16 n). induction n0 as [|m IH]; cbn; [reflexivity|]. now rewrite IH. }
  rewrite Z in E. discriminate.
Qed.
Example C88_unit_weights_span : spans 256 (skipn (16 * 8) (unit_gen [] (16 * (8 + 256)))).
Proof. apply unit_spans. Qed.
Example C88_short_example : let chi := repeat 3 128 in length (shorten 8 143 chi) = 143%nat /\ lengthen 8 (shorten 8 143 chi) = chi.
Proof. vm_compute. auto. Qed.
