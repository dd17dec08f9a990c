(** What the channels of src/common.rs are supposed to do, stated without their code. *)
From Coq Require Import List NArith Bool.
From Verif Require Import Base MProc.
Import ListNotations.

(** The frames a sender puts on the wire for the messages [ms], [tag] being its code or
    signature. *)
Definition wire (tag : bytes -> bytes) (ms : list bytes) : list bytes :=
  concat (map (fun m => [m; tag m]) ms).

(** What a receiver that checks each second frame against the first delivers: one answer per
    pair of frames, and an error for a pair cut short. *)
Fixpoint checked (good : bytes -> bytes -> bool) (frames : list bytes) : list (option bytes) :=
  match frames with
  | [] => []
  | [_] => [None]
  | d :: c :: rest => (if good d c then Some d else None) :: checked good rest
  end.

(** A protocol whose receives are answered in turn by the list (and by errors afterwards):
    its outcome and what it sends. *)
Fixpoint answered {A} (p : proc A) (ins : list (option bytes)) : outcome A * list bytes :=
  match p with
  | Done o => (o, [])
  | Snd m k => let (o, out) := answered k ins in (o, m :: out)
  | Rcv k =>
      match ins with
      | [] => answered (k None) []
      | x :: ins' => answered (k x) ins'
      end
  end.

(** An attacker who only records and re-sends: every frame delivered has been seen. *)
Definition resent (seen frames : list bytes) : Prop := forall f, In f frames -> In f seen.

(** Two different messages with one code, or a message that is itself the code of another. *)
Definition code_accident (tag : bytes -> bytes) (sent : list bytes) (d : bytes) : Prop :=
  (exists m, In m sent /\ m <> d /\ tag m = tag d) \/ In (tag d) sent.
