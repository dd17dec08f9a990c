(** What the OT extension is given. *)
From Coq Require Import List NArith Bool Arith.
From Verif Require Import Base MBincode SpecBincode SpecOt.
Import ListNotations.
Open Scope N_scope.

(** 128 pairs of 32-byte seeds: what the base OT has to carry. *)
Definition seed_pairs (msgs : list (bytes * bytes)) : Prop :=
  length msgs = 128%nat /\ Forall (fun m => array_ok 32 (fst m) /\ array_ok 32 (snd m)) msgs.

(** 128 seeds. *)
Definition seeds_ok (s : list bytes) : Prop := length s = 128%nat /\ Forall (array_ok 32) s.

(** A positive multiple of 8 pairs of messages of the same size between 1 and 65535. *)
Definition equal_sized (s : nat) (msgs : list (bytes * bytes)) : Prop :=
  Forall (fun m => length (fst m) = s /\ length (snd m) = s) msgs.
Definition extension_ok (msgs : list (bytes * bytes)) : Prop :=
  usize_ok (length msgs) /\ (0 < length msgs)%nat /\ (length msgs mod 8 = 0)%nat /\
  exists s, (0 < s)%nat /\ N.of_nat s < 2 ^ 16 /\ equal_sized s msgs.

(** The random choices of a run: both coin flip contributions, the sender's delta, the receiver's 256
    extra choices and its 128 pairs of seeds. *)
Record coins := mkCoins {
  coin_s : bytes; coin_r : bytes; coin_delta : bytes; coin_bonus : list bool;
  coin_seed0 : list bytes; coin_seed1 : list bytes
}.
Definition coins_ok (r : coins) : Prop :=
  array_ok 32 (coin_s r) /\ array_ok 32 (coin_r r) /\ array_ok 16 (coin_delta r) /\
  length (coin_bonus r) = 256%nat /\ seeds_ok (coin_seed0 r) /\ seeds_ok (coin_seed1 r).
