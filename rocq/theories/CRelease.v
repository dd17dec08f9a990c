(** C01 and C43 in release builds, where the arithmetic wraps. *)
From Coq Require Import List NArith Bool Arith Lia.
From Verif Require Import Base MUtil MPar MProc MMany SpecUtil PUtil CCircuit CApricot CMany.
Import ListNotations.
Open Scope N_scope.

(** C01: in release builds the logarithm of 0 is the width of the word: the subtraction wraps to the
    greatest word. *)
Theorem C01_log2_zero_release : forall w, 1 <= w -> w < 2 ^ 32 -> log2_ Release w 0 = Ok w.
Proof.
  intros w H1 Hw.
  assert (Hp : 2 <= 2 ^ w) by (change 2 with (2 ^ 1) at 1; apply N.pow_le_mono_r; lia).
  assert (E : usub Release w 0 1 = Ok (2 ^ w - 1)).
  { unfold usub. change (1 <=? 0) with false. cbv iota. cbn [is_debug]. f_equal. rewrite N.add_0_l. apply N.mod_small. lia. }
  unfold log2_. rewrite E. cbn [obind].
  assert (L : N.log2 (2 ^ w - 1) = w - 1).
  { rewrite !N.sub_1_r. apply N.log2_pred_pow2. lia. }
  unfold leading_zeros. rewrite N.size_log2, L by lia. replace (N.succ (w - 1)) with w by lia. rewrite N.sub_diag.
  unfold usub. rewrite (proj2 (N.leb_le 0 w)) by lia. now rewrite N.sub_0_r.
Qed.
Print Assumptions C01_log2_zero_release.
Example C01_zero_case : log2_ Release 64 0 = Ok 64 /\ log2_ Release 32 0 = Ok 32.
Proof. split; reflexivity. Qed.

(** With 64 index bits or more a release build takes the shift modulo 64: for 64 bits it sends one
    row, for 65 two; a debug build panics. *)
Example C43_many_bits :
  match many_y toy (fun _ l => repeat 1 l) Release 1 (repeat ([1], [2]) 65) [[7; 7]; [9; 9]] 64 2 with Ok y => length y = 2%nat | _ => False end /\
  match many_y toy (fun _ l => repeat 1 l) Release 1 (repeat ([1], [2]) 65) [[7; 7]; [9; 9]] 65 2 with Ok y => length y = 4%nat | _ => False end /\
  many_y toy (fun _ l => repeat 1 l) Debug 1 (repeat ([1], [2]) 65) [[7; 7]; [9; 9]] 65 2 = Panic POverflow.
Proof. vm_compute. repeat split. Qed.
