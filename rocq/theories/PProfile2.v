(** Debug builds of the protocols refine release builds. *)
From Coq Require Import List NArith Bool Arith Lia.
From Verif Require Import Base MUtil MWires MCircuit MGarble MPar MBitMatrix MPoly MPolyType MBincode MProc MOt MApricot MClassic MMany MFpake MLegacy MLegacy2 MChannel MMain.
From Verif Require Import SpecProfile PProfile.
Import ListNotations.
Open Scope N_scope.

Inductive ple {A} : proc A -> proc A -> Prop :=
| ple_panic r q : ple (Done (Panic r)) q
| ple_done o : ple (Done o) (Done o)
| ple_snd m k k' : ple k k' -> ple (Snd m k) (Snd m k')
| ple_rcv k k' : (forall x, ple (k x) (k' x)) -> ple (Rcv k) (Rcv k').

Lemma ple_refl {A} (q : proc A) : ple q q.
Proof. induction q; now constructor. Qed.
Lemma ple_lift {A} (o o' : outcome A) : ole o o' -> ple (lift o) (lift o').
Proof. intros [x|r x]; constructor. Qed.
Lemma ple_bind {A B} (q q' : proc A) (k k' : A -> proc B) :
  ple q q' -> (forall x, ple (k x) (k' x)) -> ple (pbind q k) (pbind q' k').
Proof.
  intros H K. induction H as [r q|o|m x y _ IH|x y _ IH]; cbn; [constructor| |now constructor|now constructor].
  destruct o; [apply K|constructor..].
Qed.

(** ** What it says about one party and about two *)
Lemma ple_feed {A} (q q' : proc A) : ple q q' -> forall ins, panics (fst (feed q ins)) \/ feed q' ins = feed q ins.
Proof.
  intros H. induction H as [r q|o|m x y _ IH|x y _ IH]; intros ins; cbn.
  - left. now exists r.
  - now right.
  - destruct (IH ins) as [P|E].
    + left. destruct (feed x ins) as [o out]. exact P.
    + right. now rewrite E.
  - destruct ins; apply IH.
Qed.
Lemma ple_party {A} (q : profile -> proc A) : ple (q Debug) (q Release) -> party_same_in_release q.
Proof. intros H ins. now apply ple_feed. Qed.

Lemma ple_reach {A B} (c d : cfg A B) : reach c d -> forall oa ob, d = final oa ob -> ~ panics oa -> ~ panics ob ->
  forall l' r', ple (left_ c) l' -> ple (right_ c) r' -> reach (Cfg l' r' (lr c) (rl c)) (final oa ob).
Proof.
  intros H. induction H as [c|c c1 c2 S _ IH|c c1 c2 S _ IH]; intros oa ob E Na Nb l' r' L R.
  - subst c. cbn in *. inversion L; subst; [exfalso; apply Na; now exists r|].
    inversion R; subst; [exfalso; apply Nb; now exists r|]. constructor.
  - unfold stepL in S. destruct c as [l r x y]; cbn in *. destruct L as [rr q|o|m k k' L|k k' L]; try discriminate.
    + injection S as <-. eapply reach_L; [reflexivity|]. cbn. now apply (IH oa ob).
    + destruct y as [|m y]; [discriminate|]. injection S as <-. eapply reach_L; [reflexivity|]. cbn. apply (IH oa ob); auto. apply L.
  - unfold stepR in S. destruct c as [l r x y]; cbn in *. destruct R as [rr q|o|m k k' R|k k' R]; try discriminate.
    + injection S as <-. eapply reach_R; [reflexivity|]. cbn. now apply (IH oa ob).
    + destruct x as [|m x]; [discriminate|]. injection S as <-. eapply reach_R; [reflexivity|]. cbn. apply (IH oa ob); auto. apply R.
Qed.
Lemma ple_session {A B} (s : profile -> proc A) (c : profile -> proc B) :
  ple (s Debug) (s Release) -> ple (c Debug) (c Release) -> session_same_in_release s c.
Proof.
  intros HS HC p p' oa ob H Na Nb. unfold runs, initial in *.
  apply (ple_reach _ _ H oa ob eq_refl Na Nb); cbn.
  - destruct p; [exact HS|apply ple_refl].
  - destruct p'; [exact HC|apply ple_refl].
Qed.
Lemma ole_same {A} (f : profile -> outcome A) : ole (f Debug) (f Release) -> same_in_release f.
Proof. unfold same_in_release, panics. intros H. inversion H as [x E1 E2|r x E1 E2]; [right; congruence|left; now exists r]. Qed.

(** ** Protocols *)
Create HintDb ple.
Ltac pl1 :=
  match goal with
  | |- ple ?x ?x => apply ple_refl
  | |- ple (Done (Panic _)) _ => apply ple_panic
  | |- ple (pbind _ _) (pbind _ _) => apply ple_bind; [|intros ?; cbv beta zeta]
  | |- ple (lift _) (lift _) => apply ple_lift
  | |- ple (match ?x with _ => _ end) (match ?x with _ => _ end) => destruct x
  | |- ple _ _ => solve [auto with ple nocore]
  | |- ole _ _ => ol1
  end.
Ltac pl := cbv beta zeta; repeat pl1.

Section Ots.
Variable sha : bytes -> bytes.
Variable fill gen : bytes -> nat -> bytes.
Variable G : curve.
Lemma ple_co_sender rs ms : ple (co_sender sha gen G Debug rs ms) (co_sender sha gen G Release rs ms).
Proof. unfold co_sender. pl. Qed.
Lemma ple_co_receiver rs cs : ple (co_receiver sha gen G Debug rs cs) (co_receiver sha gen G Release rs cs).
Proof. unfold co_receiver. pl. Qed.
Lemma ple_ap_sender a cores cu delta b b' ms : (forall c, ple (b c) (b' c)) ->
  ple (ap_sender sha fill Debug a cores cu delta b ms) (ap_sender sha fill Release a cores cu delta b' ms).
Proof. intros H. unfold ap_sender. pl. Qed.
Lemma ple_ap_receiver a cores cv bonus s0 s1 b b' cs : (forall m, ple (b m) (b' m)) ->
  ple (ap_receiver sha fill Debug a cores cv bonus s0 s1 b cs) (ap_receiver sha fill Release a cores cv bonus s0 s1 b' cs).
Proof. intros H. unfold ap_receiver. pl. Qed.
Lemma ple_many_sender cores ks b b' ms d : (forall m, ple (b m) (b' m)) ->
  ple (many_sender sha fill Debug cores ks b ms d) (many_sender sha fill Release cores ks b' ms d).
Proof. intros H. unfold many_sender. pl. Qed.
Lemma ple_many_receiver b b' c d : (forall m, ple (b m) (b' m)) ->
  ple (many_receiver sha fill Debug b c d) (many_receiver sha fill Release b' c d).
Proof. intros H. unfold many_receiver. pl. Qed.
Variable gen8 : bytes -> nat -> bytes.
Variable t : option arch.
Lemma ple_classic_sender cu delta b b' ms : (forall c, ple (b c) (b' c)) ->
  ple (classic_sender sha gen gen8 Debug t cu delta b ms) (classic_sender sha gen gen8 Release t cu delta b' ms).
Proof. intros H. unfold classic_sender, sender_cote, sender_correlation, sender_de_rot. pl. Qed.
Lemma ple_classic_receiver cv bonus s0 s1 b b' cs : (forall m, ple (b m) (b' m)) ->
  ple (classic_receiver sha gen gen8 Debug t cv bonus s0 s1 b cs) (classic_receiver sha gen gen8 Release t cv bonus s0 s1 b' cs).
Proof. intros H. unfold classic_receiver, receiver_cote, receiver_correlation, receiver_de_rot. pl. Qed.
End Ots.
#[export] Hint Resolve ple_co_sender ple_co_receiver : ple.

Section Exchanges.
Variable sha : bytes -> bytes.
(** the OTs of a debug and of a release build *)
Variables osd osr : list (bytes * bytes) -> proc unit.
Variables ord orr : list bool -> proc (list bytes).
Variables os2d os2r : list (bytes * bytes) -> proc unit.
Variables or2d or2r : list bool -> proc (list bytes).
Variables os3d os3r : list (bytes * bytes) -> proc unit.
Variables or3d or3r : list bool -> proc (list bytes).
Variables msd msr ms2d ms2r : nat -> list bytes -> proc unit.
Variables mrd mrr mr2d mr2r : nat -> N -> proc bytes.
Hypothesis Hos : forall m, ple (osd m) (osr m).
Hypothesis Hor : forall c, ple (ord c) (orr c).
Hypothesis Hos2 : forall m, ple (os2d m) (os2r m).
Hypothesis Hor2 : forall c, ple (or2d c) (or2r c).
Hypothesis Hos3 : forall m, ple (os3d m) (os3r m).
Hypothesis Hor3 : forall c, ple (or3d c) (or3r c).
Hypothesis Hms : forall d m, ple (msd d m) (msr d m).
Hypothesis Hmr : forall d i, ple (mrd d i) (mrr d i).
Hypothesis Hms2 : forall d m, ple (ms2d d m) (ms2r d m).
Hypothesis Hmr2 : forall d i, ple (mr2d d i) (mr2r d i).

Lemma ple_garbler g pw t : ple (garbler sha Debug g osd pw t) (garbler sha Release g osr pw t).
Proof using Hos. unfold garbler. pl. Qed.
Lemma ple_evaluator pw : ple (evaluator sha Debug ord pw) (evaluator sha Release orr pw).
Proof using Hor. unfold evaluator. pl. Qed.
Hint Resolve ple_garbler ple_evaluator : ple.
Lemma ple_fpake_server g pw t : ple (fpake_server sha Debug g osd ord pw t) (fpake_server sha Release g osr orr pw t).
Proof using Hos Hor. unfold fpake_server. pl. Qed.
Lemma ple_fpake_client g pw t : ple (fpake_client sha Debug g osd ord pw t) (fpake_client sha Release g osr orr pw t).
Proof using Hos Hor. unfold fpake_client. pl. Qed.
Lemma ple_mfpake_many mask g l t : ple (mfpake_many sha Debug mask g msd osd ord l t) (mfpake_many sha Release mask g msr osr orr l t).
Proof using Hos Hor Hms. unfold mfpake_many. pl. Qed.
Lemma ple_mfpake_single g pw i n t : ple (mfpake_single sha Debug g mrd osd ord pw i n t) (mfpake_single sha Release g mrr osr orr pw i n t).
Proof using Hos Hor Hmr. unfold mfpake_single. pl. Qed.
Lemma ple_garbler_server_v3 mask g l t : ple (garbler_server_v3 sha Debug mask g osd msd os2d l t) (garbler_server_v3 sha Release mask g osr msr os2r l t).
Proof using Hos Hos2 Hms. unfold garbler_server_v3. pl. Qed.
Lemma ple_evaluator_client_v3 pw n i : ple (evaluator_client_v3 sha Debug ord mrd or2d pw n i) (evaluator_client_v3 sha Release orr mrr or2r pw n i).
Proof using Hor Hor2 Hmr. unfold evaluator_client_v3. pl. Qed.
Lemma ple_garbler_client_v3 g pw m t : ple (garbler_client_v3 sha Debug g os3d pw m t) (garbler_client_v3 sha Release g os3r pw m t).
Proof using Hos3. unfold garbler_client_v3. pl. Qed.
Lemma ple_evaluator_server_v3 l m : ple (evaluator_server_v3 sha Debug or3d l m) (evaluator_server_v3 sha Release or3r l m).
Proof using Hor3. unfold evaluator_server_v3. pl. Qed.
Hint Resolve ple_garbler_server_v3 ple_evaluator_client_v3 ple_garbler_client_v3 ple_evaluator_server_v3 : ple.
Lemma ple_server_v3 mask g l t : ple (server_v3 sha Debug mask g osd msd os2d or3d l t) (server_v3 sha Release mask g osr msr os2r or3r l t).
Proof using Hos Hos2 Hor3 Hms. unfold server_v3. pl. Qed.
Lemma ple_client_v3 g pw n i t : ple (client_v3 sha Debug g ord mrd or2d os3d pw n i t) (client_v3 sha Release g orr mrr or2r os3r pw n i t).
Proof using Hor Hor2 Hos3 Hmr. unfold client_v3. pl. Qed.

Lemma ple_gs1 g l t : ple (garbler_server_v1 sha Debug g osd msd l t) (garbler_server_v1 sha Release g osr msr l t).
Proof using Hos Hms. unfold garbler_server_v1. pl. Qed.
Lemma ple_ec1 pw n i : ple (evaluator_client_v1 sha Debug ord mrd pw n i) (evaluator_client_v1 sha Release orr mrr pw n i).
Proof using Hor Hmr. unfold evaluator_client_v1. pl. Qed.
Lemma ple_gc1 rand g pw i n t : ple (garbler_client_v1 sha Debug rand g os3d pw i n t) (garbler_client_v1 sha Release rand g os3r pw i n t).
Proof using Hos3. unfold garbler_client_v1. pl. Qed.
Lemma ple_es1 l : ple (evaluator_server_v1 sha Debug or3d l) (evaluator_server_v1 sha Release or3r l).
Proof using Hor3. unfold evaluator_server_v1, evaluator_server_v1_seen. pl. Qed.
Lemma ple_gs2 mask g l t : ple (garbler_server_v2 sha Debug mask g osd msd os2d l t) (garbler_server_v2 sha Release mask g osr msr os2r l t).
Proof using Hos Hos2 Hms. unfold garbler_server_v2. pl. Qed.
Lemma ple_ec2 pw n i : ple (evaluator_client_v2 sha Debug ord mrd or2d pw n i) (evaluator_client_v2 sha Release orr mrr or2r pw n i).
Proof using Hor Hor2 Hmr. unfold evaluator_client_v2. pl. Qed.
Lemma ple_gc2 g pw i n t : ple (garbler_client_v2 sha Debug g os3d mr2d pw i n t) (garbler_client_v2 sha Release g os3r mr2r pw i n t).
Proof using Hos3 Hmr2. unfold garbler_client_v2. pl. Qed.
Lemma ple_es2 mask l : ple (evaluator_server_v2 sha Debug mask or3d ms2d l) (evaluator_server_v2 sha Release mask or3r ms2r l).
Proof using Hor3 Hms2. unfold evaluator_server_v2. pl. Qed.
Hint Resolve ple_gs1 ple_ec1 ple_gc1 ple_es1 ple_gs2 ple_ec2 ple_gc2 ple_es2 : ple.
Lemma ple_server_v1 g l t : ple (server_v1 sha Debug g osd msd or3d l t) (server_v1 sha Release g osr msr or3r l t).
Proof using Hos Hor3 Hms. unfold server_v1. pl. Qed.
Lemma ple_client_v1 rand g pw n i t : ple (client_v1 sha Debug rand g ord mrd os3d pw n i t) (client_v1 sha Release rand g orr mrr os3r pw n i t).
Proof using Hor Hos3 Hmr. unfold client_v1. pl. Qed.
Lemma ple_server_v2 mask mask' g l t : ple (server_v2 sha Debug mask mask' g osd msd os2d or3d ms2d l t) (server_v2 sha Release mask mask' g osr msr os2r or3r ms2r l t).
Proof using Hos Hos2 Hor3 Hms Hms2. unfold server_v2. pl. Qed.
Lemma ple_client_v2 g pw n i t : ple (client_v2 sha Debug g ord mrd or2d os3d mr2d pw n i t) (client_v2 sha Release g orr mrr or2r os3r mr2r pw n i t).
Proof using Hor Hor2 Hos3 Hmr Hmr2. unfold client_v2. pl. Qed.
Lemma ple_server_v12 mask g l t : ple (server_v12 sha Debug mask g osd msd or3d ms2d l t) (server_v12 sha Release mask g osr msr or3r ms2r l t).
Proof using Hos Hor3 Hms Hms2. unfold server_v12. pl. Qed.
Lemma ple_client_v12 g pw n i t : ple (client_v12 sha Debug g ord mrd os3d mr2d pw n i t) (client_v12 sha Release g orr mrr os3r mr2r pw n i t).
Proof using Hor Hos3 Hmr Hmr2. unfold client_v12. pl. Qed.
Lemma ple_server_v21 mask g l t : ple (server_v21 sha Debug mask g osd msd os2d or3d l t) (server_v21 sha Release mask g osr msr os2r or3r l t).
Proof using Hos Hos2 Hor3 Hms. unfold server_v21. pl. Qed.
Lemma ple_client_v21 rand g pw n i t : ple (client_v21 sha Debug rand g ord mrd or2d os3d pw n i t) (client_v21 sha Release rand g orr mrr or2r os3r pw n i t).
Proof using Hor Hor2 Hos3 Hmr. unfold client_v21. pl. Qed.
End Exchanges.

Lemma ple_over_auth {A} hmac ks kr (q q' : proc A) : ple q q' -> ple (over_auth hmac ks kr q) (over_auth hmac ks kr q').
Proof.
  intros H. induction H as [r q|o|m x y _ IH|x y _ IH]; cbn; [constructor|constructor|now do 2 constructor|].
  constructor. intros [d|]; [|apply IH]. constructor. intros [c|]; [|apply IH]. destruct (bytes_eqb _ _); apply IH.
Qed.
Lemma ple_serve {A} hmac xpub xdh s (q q' : proc A) : ple q q' -> ple (serve hmac xpub xdh s q) (serve hmac xpub xdh s q').
Proof. intros H. unfold serve. pl. now apply ple_over_auth. Qed.
Lemma ple_connect {A} hmac xpub xdh s (q q' : proc A) : ple q q' -> ple (connect hmac xpub xdh s q) (connect hmac xpub xdh s q').
Proof. intros H. unfold connect. pl. now apply ple_over_auth. Qed.
