(** What the first version of the OT extension is given. *)
From Coq Require Import List NArith Bool Arith.
From Verif Require Import Base MBincode MProc MOt MApricot MClassic SpecBincode SpecOt SpecApricot.
Import ListNotations.
Open Scope N_scope.

(** A positive multiple of 8 pairs of messages, each of any size. *)
Definition classic_ok (msgs : list (bytes * bytes)) : Prop :=
  payload_ok msgs /\ (0 < length msgs)%nat /\ (length msgs mod 8 = 0)%nat.

(** The random choices of a run, with 192 extra choices. *)
Definition classic_coins_ok (r : coins) : Prop :=
  array_ok 32 (coin_s r) /\ array_ok 32 (coin_r r) /\ array_ok 16 (coin_delta r) /\
  length (coin_bonus r) = 192%nat /\ seeds_ok (coin_seed0 r) /\ seeds_ok (coin_seed1 r).

(** ** Dishonest peers. These programs are not part of /repo. *)
(** A sender for [n] choices that follows the rules and in the end sends no ciphertexts. *)
Definition short_sender (sha : bytes -> bytes) (gen20 gen8 : bytes -> nat -> bytes) (p : profile) (a : option arch)
    (cu delta : bytes) (bootstrap : list bool -> proc (list bytes)) (n : nat) : proc unit :=
  let! _ := validate_properties (mkProps n apricot_name) in
  let l := (n + COMP_SEC + STAT_SEC)%nat in
  let! q := sender_cote gen20 delta bootstrap l in
  let! _ := sender_correlation sha gen20 p a cu l q delta in
  sender_de_rot sha gen8 p q delta [].

(** A receiver that negotiates, runs the base OT and the coin flip by the rules, but sends a matrix u
    and sums of its choice. *)
Definition evil_classic (sha : bytes -> bytes) (cv : bytes) (seed0 seed1 : list bytes)
    (bootstrap : list (bytes * bytes) -> proc unit) (n : nat) (u : list bytes) (x_sum t_sum : bytes) : proc unit :=
  let! _ := validate_properties (mkProps n apricot_name) in
  let! _ := bootstrap (combine seed0 seed1) in
  let! _ := send (enc_rows u) in
  let! _ := coinflip_sender sha 32 cv in
  let! _ := send (enc_bytes x_sum) in
  send (enc_bytes t_sum).

(** Whatever the peer sends, a receiver of [n] messages that ends without an error has [n] of them. *)
Definition always_returns (n : nat) (p : proc (list bytes)) : Prop :=
  forall ins out, fst (feed p ins) = Ok out -> length out = n.
