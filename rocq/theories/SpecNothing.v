(** Transfers of nothing (C98). *)
From Coq Require Import List NArith.
From Verif Require Import Base MUtil MBincode MProc MOt MApricot.
Import ListNotations.
Open Scope N_scope.

(** The left process has ended with [oa]; nothing is in flight, and once the connection closes the
    right one ends with [ob], sending nothing. *)
Definition leaves {A B} (S : proc A) (R : proc B) (oa : outcome A) (ob : outcome B) : Prop :=
  exists q, reach (initial S R) (Cfg (Done oa) q [] []) /\ feed q [] = (ob, []).

(** Pairs of empty messages. *)
Definition empty_pairs (n : nat) : list (bytes * bytes) := repeat ([], []) n.

(** A repaired sender for no messages: it follows apricot.rs:29-233 but announces messages of size 0
    instead of looking at its first message, trusts its peer, and sends [d] at the end. *)
Definition quiet_sender (sha : bytes -> bytes) (cu delta : bytes) (bootstrap : list bool -> proc (list bytes)) (d : bytes) : proc unit :=
  let! _ := validate_properties (mkProps 0 apricot_name) in
  let! _ := coinflip_receiver sha 32 cu in
  let! _ := send [0; 0] in
  let! _ := bootstrap (u8_vec_to_bool_vec delta) in
  let! _ := recv in let! _ := recv in let! _ := recv in
  send d.
