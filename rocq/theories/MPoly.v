(** Model of src/ot/polynomial.rs. A 128-bit BitVector is its 16 bytes; u64, u128 and __m128i values are
    [N] below 2^64 and 2^128 (lane 0 is the low half). Pointer alignment is not modelled. *)
From Coq Require Import List NArith Bool Arith.
From Verif Require Import Base.
Import ListNotations.
Open Scope N_scope.

(** [<<] on u128 drops the high bits; [>>] on u128/u64; casts to u64. *)
Definition shl128 (x n : N) : N := N.shiftl x n mod 2 ^ 128.
Definition lo64 (x : N) : N := x mod 2 ^ 64.
Definition hi64 (x : N) : N := N.shiftr x 64.
Definition join64 (hi lo : N) : N := N.shiftl hi 64 + lo.

(** polynomial.rs:115-132 [gf128_reduce]. *)
Definition gf128_reduce (x32 x10 : N) : N :=
  let x2 := lo64 x32 in
  let x3 := lo64 (N.shiftr x32 64) in
  let a := N.shiftr x3 63 in
  let b := N.shiftr x3 62 in
  let c := N.shiftr x3 57 in
  let d := N.lxor (N.lxor (N.lxor x2 a) b) c in
  let x3d := N.lor (shl128 x3 64) d in
  let e := shl128 x3d 1 in
  let f := shl128 x3d 2 in
  let g := shl128 x3d 7 in
  let h := N.lxor (N.lxor (N.lxor x3d e) f) g in
  N.lxor h x10.

(** polynomial.rs:140-152, the loop of the generic [clmul]; [None]: out of fuel. *)
Fixpoint clmul_loop (fuel : nat) (a b r : N) : option N :=
  if b =? 0 then Some r
  else match fuel with
       | O => None
       | S fuel' =>
           clmul_loop fuel' (N.shiftr a 1) (shl128 b 1) (if N.land a 1 =? 1 then N.lxor r b else r)
       end.

(** Unchecked pointer reads and writes of 8 and 16 bytes: UB outside the vector. *)
Definition read64 (v : bytes) (lane : nat) : outcome N :=
  if Nat.leb (8 * lane + 8) (length v) then Ok (le_value (firstn 8 (skipn (8 * lane) v))) else UB.
Definition read128 (v : bytes) : outcome N :=
  if Nat.leb 16 (length v) then Ok (le_value (firstn 16 v)) else UB.
Definition write128 (v : bytes) (x : N) : outcome bytes :=
  if Nat.leb 16 (length v) then Ok (le_bytes 16 x ++ skipn 16 v) else UB.
(** [*acc ^= res]. *)
Definition xor128 (v : bytes) (x : N) : outcome bytes :=
  let* old := read128 v in write128 v (N.lxor old x).

(** polynomial.rs:140-152 [clmul::<A,B>]. 128 rounds suffice, see C24. *)
Definition clmul_generic (la lb : nat) (a b : bytes) : outcome N :=
  let* x := read64 a la in
  let* y := read64 b lb in
  match clmul_loop 128 x y 0 with Some r => Ok r | None => Panic PTodo end.

(** polynomial.rs:135-174 [polynomial_mul_acc_generic]. *)
Definition mul_acc_generic (p : profile) (acc left right : bytes) : outcome bytes :=
  let* _ := debug_assert p (Nat.eqb (8 * length left) 128) in
  let* _ := debug_assert p (Nat.eqb (8 * length right) 128) in
  let* c := clmul_generic 0 0 left right in
  let* d := clmul_generic 1 1 left right in
  let* e := clmul_generic 0 1 left right in
  let* f := clmul_generic 1 0 left right in
  let ef := N.lxor e f in
  let lower := shl128 ef 64 in
  let upper := N.shiftr ef 64 in
  xor128 acc (gf128_reduce (N.lxor d upper) (N.lxor c lower)).

(** ** x86 intrinsics, after Intel's documentation *)
Definition mm_set_epi64x (hi lo : N) : N := join64 hi lo.
Definition mm_extract_epi64 (a : N) (i : nat) : N := match i with O => lo64 a | _ => hi64 a end.
Definition mm_xor (a b : N) : N := N.lxor a b.
Definition mm_or (a b : N) : N := N.lor a b.
(** byte-wise shifts of the whole register by 8 bytes *)
Definition mm_bslli_8 (a : N) : N := shl128 a 64.
Definition mm_bsrli_8 (a : N) : N := N.shiftr a 64.
(** lane-wise shifts *)
Definition mm_slli_epi64 (a n : N) : N := join64 (N.shiftl (hi64 a) n mod 2 ^ 64) (N.shiftl (lo64 a) n mod 2 ^ 64).
Definition mm_srli_epi64 (a n : N) : N := join64 (N.shiftr (hi64 a) n) (N.shiftr (lo64 a) n).
(** carry-less multiplication of two 64-bit values: the exclusive or of the shifted copies of b
    (also aarch64 PMULL). *)
Definition clmul64 (a b : N) : N :=
  fold_left (fun r i => if N.testbit a (N.of_nat i) then N.lxor r (N.shiftl b (N.of_nat i)) else r) (seq 0 64) 0.
(** bit 0 of the immediate selects the lane of a, bit 4 the lane of b. *)
Definition mm_clmulepi64 (a b imm : N) : N :=
  clmul64 (if N.testbit imm 0 then hi64 a else lo64 a) (if N.testbit imm 4 then hi64 b else lo64 b).

(** polynomial.rs:193-228 [_mm_slli_si128_1], [_2], [_7] (same body, the shift is a constant). *)
Definition mm_slli_si128_k (k : N) (value : N) : N :=
  let carry := mm_bslli_8 value in
  let carry := mm_srli_epi64 carry (64 - k) in
  let value := mm_slli_epi64 value k in
  mm_or value carry.

(** polynomial.rs:230-252 [polynomial_gf128_reduce]. *)
Definition reduce_x86 (x32 x10 : N) : N :=
  let x2 := mm_extract_epi64 x32 0 in
  let x3 := mm_extract_epi64 x32 1 in
  let a := N.shiftr x3 63 in
  let b := N.shiftr x3 62 in
  let c := N.shiftr x3 57 in
  let d := N.lxor (N.lxor (N.lxor x2 a) b) c in
  let x3d := mm_set_epi64x x3 d in
  let e := mm_slli_si128_k 1 x3d in
  let f := mm_slli_si128_k 2 x3d in
  let g := mm_slli_si128_k 7 x3d in
  let h := mm_xor x3d e in
  let h := mm_xor h f in
  let h := mm_xor h g in
  mm_xor h x10.

(** polynomial.rs:254-284 [polynomial_mul_acc_x86], with [m128i_to_u128] (185-190). *)
Definition mul_acc_x86 (acc left right : bytes) : outcome bytes :=
  let* a := read128 left in
  let* b := read128 right in
  let c := mm_clmulepi64 a b 0 in
  let d := mm_clmulepi64 a b 17 in
  let e := mm_clmulepi64 a b 1 in
  let f := mm_clmulepi64 a b 16 in
  let ef := mm_xor e f in
  let lower := mm_bslli_8 ef in
  let upper := mm_bsrli_8 ef in
  let left := mm_xor d upper in
  let right := mm_xor c lower in
  let r := reduce_x86 left right in
  xor128 acc (N.lor (shl128 (mm_extract_epi64 r 1) 64) (mm_extract_epi64 r 0)).

(** ** aarch64 intrinsics: a poly64x2_t is a pair (lane 0, lane 1) *)
Definition p128_of (v : N * N) : N := join64 (snd v) (fst v).
Definition p64x2_of (x : N) : N * N := (lo64 x, hi64 x).
(** [vextq_p64(a, b, 1)]: lanes a[1], b[0]. *)
Definition vextq1 (a b : N * N) : N * N := (snd a, fst b).
Definition lane (v : N * N) (i : nat) : N := match i with O => fst v | _ => snd v end.

(** polynomial.rs:286-321 [polynomial_mul_acc_arm64]. *)
Definition mul_acc_arm64 (p : profile) (acc left right : bytes) : outcome bytes :=
  let* _ := debug_assert p (Nat.eqb (8 * length left) 128) in
  let* _ := debug_assert p (Nat.eqb (8 * length right) 128) in
  let* l := read128 left in
  let* r := read128 right in
  let a := p64x2_of l in
  let b := p64x2_of r in
  let z := (0, 0) in
  let pmull i j := clmul64 (lane a i) (lane b j) in
  let c := pmull 0%nat 0%nat in
  let d := pmull 1%nat 1%nat in
  let e := pmull 0%nat 1%nat in
  let f := pmull 1%nat 0%nat in
  let ef := N.lxor e f in
  let lower := vextq1 z (p64x2_of ef) in
  let upper := vextq1 (p64x2_of ef) z in
  let left := N.lxor d (p128_of upper) in
  let right := N.lxor c (p128_of lower) in
  xor128 acc (gf128_reduce left right).

(** apricot.rs:649-677 [polynomial_mul_acc] on x86_64: as above, but the result is xored in place as one
    128-bit value. *)
Definition ap_mul_acc_x86 (acc left right : bytes) : outcome bytes :=
  let* a := read128 left in
  let* b := read128 right in
  let c := mm_clmulepi64 a b 0 in
  let d := mm_clmulepi64 a b 17 in
  let e := mm_clmulepi64 a b 1 in
  let f := mm_clmulepi64 a b 16 in
  let ef := mm_xor e f in
  let lower := mm_bslli_8 ef in
  let upper := mm_bsrli_8 ef in
  let left := mm_xor d upper in
  let right := mm_xor c lower in
  xor128 acc (reduce_x86 left right).
(** apricot.rs:679-733 [polynomial_mul_acc] on aarch64. *)
Definition ap_mul_acc_arm64 (acc left right : bytes) : outcome bytes :=
  let* l := read128 left in
  let* r := read128 right in
  let a := p64x2_of l in
  let b := p64x2_of r in
  let z := (0, 0) in
  let pmull i j := clmul64 (lane a i) (lane b j) in
  let c := pmull 0%nat 0%nat in
  let d := pmull 1%nat 1%nat in
  let e := pmull 0%nat 1%nat in
  let f := pmull 1%nat 0%nat in
  let ef := N.lxor e f in
  let lower := vextq1 z (p64x2_of ef) in
  let upper := vextq1 (p64x2_of ef) z in
  let left := N.lxor d (p128_of upper) in
  let right := N.lxor c (p128_of lower) in
  xor128 acc (gf128_reduce left right).
