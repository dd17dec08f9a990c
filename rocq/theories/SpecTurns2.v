(** Dialogues of the older versions of the one-of-many exchange, seen from the server. *)
From Coq Require Import List NArith Arith.
From Verif Require Import SpecTurns.
Import ListNotations.
Open Scope nat_scope.

(** The server garbles: circuit, labels by OT, (the mask's labels,) the password by 1-out-of-2^k OT (and labels by OT again). *)
Definition server_garbles_v1 (k : nat) : dialogue := [(1, 0)] ++ swap ext_dialogue ++ many_dialogue k.
Definition server_garbles_v2 (k : nat) : dialogue := [(1, 0)] ++ swap ext_dialogue ++ [(1, 0)] ++ many_dialogue k ++ swap ext_dialogue.
(** The client garbles: circuit and labels, labels by OT (the password by 1-out-of-2^k OT, and its labels). *)
Definition client_garbles_v1 : dialogue := [(0, 2)] ++ ext_dialogue.
Definition client_garbles_v2 (k : nat) : dialogue := [(0, 2)] ++ ext_dialogue ++ many_dialogue k ++ [(0, 1)].
Definition v1_dialogue (k : nat) : dialogue := server_garbles_v1 k ++ client_garbles_v1.
Definition v2_dialogue (k : nat) : dialogue := server_garbles_v2 k ++ client_garbles_v2 k.
Definition v12_dialogue (k : nat) : dialogue := server_garbles_v1 k ++ client_garbles_v2 k.
Definition v21_dialogue (k : nat) : dialogue := server_garbles_v2 k ++ client_garbles_v1.
