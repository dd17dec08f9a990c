(** Row-wise access to flat buffers and the rayon worker pattern of ot/apricot.rs and ot/one_of_many.rs. *)
From Coq Require Import List NArith Bool Arith.
From Verif Require Import Base MUtil.
Import ListNotations.
Open Scope N_scope.

(** [for i in 0..h { let row = unsafe { vector_row_mut(&mut v, i, w) }; ... }]: every row is read by
    the body and replaced by the body's result (of the same length). *)
Definition row_step (w : nat) (f : nat -> bytes -> outcome bytes) (v : bytes) (i : nat) : outcome bytes :=
  let* row := vector_row v i w in
  let* new := f i row in
  vector_row_set v i w new.
Definition update_rows (v : bytes) (h w : nat) (f : nat -> bytes -> outcome bytes) : outcome bytes :=
  foldM (row_step w f) (seq 0 h) v.

(** [v.chunks_mut(k)] (panics for k = 0). *)
Fixpoint chunks_fuel {A} (fuel k : nat) (l : list A) : list (list A) :=
  match fuel with
  | O => []
  | S fuel' => match l with [] => [] | _ => firstn k l :: chunks_fuel fuel' k (skipn k l) end
  end.
Definition chunks_mut {A} (k : nat) (l : list A) : outcome (list (list A)) :=
  if Nat.eqb k 0 then Panic PSlice else Ok (chunks_fuel (length l) k l).

(** [.enumerate()] *)
Definition enumerate {A} (l : list A) : list (nat * A) := combine (seq 0 (length l)) l.

(** The worker pattern of apricot.rs:152-191 and 357-381: one task per chunk of [rows_in_chunk] rows
    of [width] bytes; task [ci] handles rows [ci * rows_in_chunk + i].  The tasks own disjoint
    chunks; here they run one after the other (see [any_order] in PPar.v for other orders). *)
Definition par_rows (width rows_in_chunk : nat) (buf : bytes) (work : nat -> bytes -> outcome bytes) : outcome bytes :=
  let* cs := chunks_mut (rows_in_chunk * width) buf in
  let* rs := mapM (fun c : nat * bytes =>
      update_rows (snd c) (length (snd c) / width) width (fun i row => work (fst c * rows_in_chunk + i)%nat row))
    (enumerate cs) in
  Ok (concat rs).

(** The same over a vector of vectors (apricot.rs:412-441). *)
Definition par_items {A} (rows_in_chunk : nat) (l : list A) (work : nat -> A -> outcome A) : outcome (list A) :=
  let* cs := chunks_mut rows_in_chunk l in
  let* rs := mapM (fun c : nat * list A =>
      mapM (fun ia : nat * A => work (fst c * rows_in_chunk + fst ia)%nat (snd ia)) (enumerate (snd c)))
    (enumerate cs) in
  Ok (concat rs).

(** apricot.rs:580-594 [pick_suitable_thread_count]; [cores] is [num_cpus::get()]. *)
Definition pick_suitable_thread_count (cores rows : nat) : outcome nat :=
  if Nat.ltb rows cores then Ok rows
  else if Nat.eqb cores 0 then Panic PDivZero
  else if Nat.eqb (rows mod cores) 0 then Ok cores
  else Ok (rows / cores)%nat.

(** [a / b] on usize. *)
Definition udiv (a b : nat) : outcome nat := if Nat.eqb b 0 then Panic PDivZero else Ok (a / b)%nat.
