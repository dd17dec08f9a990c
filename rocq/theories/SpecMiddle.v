(** Somebody between two endpoints: they think they talk to each other, but every frame goes through the man in the
    middle, who may hold back, change and invent frames.  He is on one channel with each of them. *)
From Coq Require Import List NArith Bool.
From Verif Require Import Base MProc.
Import ListNotations.

Inductive side := L | R.
(** What the man does: [To s m] sends [m] to that endpoint, [From s] waits for a frame of that endpoint. *)
Inductive man (M : Type) :=
| Gone (x : M)
| To (s : side) (m : bytes) (k : man M)
| From (s : side) (k : bytes -> man M).
Arguments Gone {M} x.
Arguments To {M} s m k.
Arguments From {M} s k.

(** The endpoints, the man, and the frames in flight: from the left endpoint, to it, from the right one, to it. *)
Record net (A M B : Type) := Net {
  lp : proc A; mp : man M; rp : proc B;
  from_l : list bytes; to_l : list bytes; from_r : list bytes; to_r : list bytes }.
Arguments Net {A M B} lp mp rp from_l to_l from_r to_r.

Inductive move {A M B} : net A M B -> net A M B -> Prop :=
| l_snd m k b q fl tl fr tr : move (Net (Snd m k) b q fl tl fr tr) (Net k b q (fl ++ [m]) tl fr tr)
| l_rcv m k b q fl tl fr tr : move (Net (Rcv k) b q fl (m :: tl) fr tr) (Net (k (Some m)) b q fl tl fr tr)
| r_snd m k b p fl tl fr tr : move (Net p b (Snd m k) fl tl fr tr) (Net p b k fl tl (fr ++ [m]) tr)
| r_rcv m k b p fl tl fr tr : move (Net p b (Rcv k) fl tl fr (m :: tr)) (Net p b (k (Some m)) fl tl fr tr)
| m_to_l m k p q fl tl fr tr : move (Net p (To L m k) q fl tl fr tr) (Net p k q fl (tl ++ [m]) fr tr)
| m_to_r m k p q fl tl fr tr : move (Net p (To R m k) q fl tl fr tr) (Net p k q fl tl fr (tr ++ [m]))
| m_from_l m k p q fl tl fr tr : move (Net p (From L k) q (m :: fl) tl fr tr) (Net p (k m) q fl tl fr tr)
| m_from_r m k p q fl tl fr tr : move (Net p (From R k) q fl tl (m :: fr) tr) (Net p (k m) q fl tl fr tr).

Inductive moves {A M B} : net A M B -> net A M B -> Prop :=
| moves_refl c : moves c c
| moves_cons c c1 c2 : move c c1 -> moves c1 c2 -> moves c c2.

(** Some schedule ends cleanly with these outcomes, nothing in flight and no side seeing a closed channel. *)
Definition between {A M B} (p : proc A) (b : man M) (q : proc B) (oa : outcome A) (x : M) (ob : outcome B) : Prop :=
  moves (Net p b q [] [] [] []) (Net (Done oa) (Gone x) (Done ob) [] [] [] []).

(** Talking to one endpoint with a program of one's own, then going on. *)
Fixpoint talk {A M} (s : side) (p : proc A) (k : outcome A -> man M) : man M :=
  match p with
  | Done o => k o
  | Snd m p' => To s m (talk s p' k)
  | Rcv f => From s (fun m => talk s (f (Some m)) k)
  end.

(** A man for plain channels turned into one for channels with codes: [code s] makes codes for that endpoint; the codes
    that come in are not even looked at. *)
Fixpoint coded {M} (code : side -> bytes -> bytes) (b : man M) : man M :=
  match b with
  | Gone x => Gone x
  | To s m k => To s m (To s (code s m) (coded code k))
  | From s k => From s (fun m => From s (fun _ => coded code (k m)))
  end.
(** Before that he does the handshake of [ChannelServer::next]/[connect_channel] with each, with key pairs of his own:
    [xs] towards the server (the left endpoint), [xc] towards the client. *)
Definition split_auth {M} (hmac : bytes -> bytes -> bytes) (xpub : bytes -> bytes) (xdh : bytes -> bytes -> bytes)
    (xs xc : bytes) (b : man M) : man M :=
  From L (fun theirs_s => To L (xpub xs) (To R (xpub xc) (From R (fun theirs_c =>
    coded (fun s => match s with L => hmac (xdh xs theirs_s) | R => hmac (xdh xc theirs_c) end) b)))).
Definition split_signed {M} (edpub : bytes -> bytes) (edsign : bytes -> bytes -> bytes) (xs xc : bytes) (b : man M) : man M :=
  From L (fun _ => To L (edpub xs) (To R (edpub xc) (From R (fun _ =>
    coded (fun s => match s with L => edsign xs | R => edsign xc end) b)))).
