(** C29: results of two-party runs do not depend on the schedule. *)
From Coq Require Import List NArith Bool Lia.
From Verif Require Import Base MProc PProc.
Import ListNotations.
Open Scope N_scope.

(** C29.  [runs p q oa ob] says that one schedule ends cleanly.  Then every schedule, including
    those in which a side sees the closed channel of a peer that has ended, has bounded
    length, can be completed to the same results, and stops nowhere else. *)
Theorem C29_every_schedule_same_results :
  forall (A B : Type) (p : proc A) (q : proc B) (oa : outcome A) (ob : outcome B),
    runs p q oa ob ->
    exists n, forall k c, steps k (initial p q) c ->
      (k <= n)%nat /\
      steps (n - k) c (final oa ob) /\
      ((forall c', ~ step c c') -> c = final oa ob).
Proof. intros A B. exact schedule_independent. Qed.
Print Assumptions C29_every_schedule_same_results.

(** C29: in particular the results are unique. *)
Theorem C29_results_are_unique :
  forall (A B : Type) (p : proc A) (q : proc B) oa oa' ob ob',
    runs p q oa ob -> runs p q oa' ob' -> oa = oa' /\ ob = ob'.
Proof. intros A B p q oa oa' ob ob'. exact (runs_fun p q oa oa' ob ob'). Qed.
Print Assumptions C29_results_are_unique.

(** C29: a clean run is a consistent pair of transcripts: each side alone, fed with what the other
    one sent, produces its part. *)
Theorem C29_consistent_transcripts :
  forall (A B : Type) (p : proc A) (q : proc B) oa ob,
    runs p q oa ob ->
    exists la lb, feed p lb = (oa, la) /\ feed q la = (ob, lb).
Proof. intros A B. exact runs_feed. Qed.
Print Assumptions C29_consistent_transcripts.

(** Two endpoints that both send first and then read. *)
Definition exch (m : bytes) : proc bytes := let! _ := send m in let! x := recv in ret x.
Example exch_runs : runs (exch [1]) (exch [2]) (Ok [2]) (Ok [1]).
Proof. apply runs_exchange. apply runs_ret. Qed.
Example exch_other_schedule :
  exists c, stepR (initial (exch [1]) (exch [2])) = Some c /\ drive 10 c = final (Ok [2]) (Ok [1]).
Proof. eexists; split; reflexivity. Qed.

(** The hypothesis matters: two endpoints that both read first are stuck. *)
Example deadlock_has_no_run : forall oa ob,
  ~ runs (let! x := recv in let! _ := send x in ret x) (let! x := recv in let! _ := send x in ret x) oa ob.
Proof. intros oa ob H. inversion H; discriminate. Qed.
