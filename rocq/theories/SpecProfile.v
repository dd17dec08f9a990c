(** What a debug build shows about a release build. *)
From Coq Require Import List NArith Bool.
From Verif Require Import Base MProc.
Import ListNotations.

Definition panics {A} (o : outcome A) : Prop := exists r, o = Panic r.

(** A function, by build profile: where the debug build does not panic, the release build returns the same. *)
Definition same_in_release {A} (f : profile -> outcome A) : Prop := panics (f Debug) \/ f Release = f Debug.

(** One party, by build profile, against any peer: where the debug build does not panic, the release build sends the same
    frames and ends in the same way. *)
Definition party_same_in_release {A} (q : profile -> proc A) : Prop :=
  forall ins, panics (fst (feed (q Debug) ins)) \/ feed (q Release) ins = feed (q Debug) ins.

(** Two parties: what a session ends with, in builds of any kind on either side, is what it ends with between two release
    builds, unless somebody panicked. *)
Definition session_same_in_release {A B} (s : profile -> proc A) (c : profile -> proc B) : Prop :=
  forall p p' oa ob, runs (s p) (c p') oa ob -> ~ panics oa -> ~ panics ob -> runs (s Release) (c Release) oa ob.
