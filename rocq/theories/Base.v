(** Common ground of the model: outcomes of Rust computations, build profiles,
    bytes, checked machine arithmetic and small list helpers.

    This file models no Rust function; it fixes how Rust effects are represented. *)
From Coq Require Import List NArith Bool Lia.
Import ListNotations.
Open Scope N_scope.

Arguments N.add : simpl never.
Arguments N.sub : simpl never.
Arguments N.mul : simpl never.
Arguments N.div : simpl never.
Arguments N.modulo : simpl never.
Arguments N.pow : simpl never.
Arguments N.of_nat : simpl never.

(** Error values ([Result::Err]) used by the modelled functions. *)
Inductive err :=
| EDecode            (* garble.rs DecodeError *)
| EClosed            (* a channel whose peer is gone: ductile's error *)
| EBincode           (* bincode deserialisation error *)
| EBadProperties     (* ot/common.rs Error::BadProperties *)
| ECoinflipLen       (* ot/coinflip.rs length errors *)
| ECoinflipHash      (* ot/coinflip.rs commitment mismatch *)
| ECorrelation       (* ot/apricot*.rs correlation check failed *)
| EBadOutputCount    (* circuit.rs CircuitError::BadOutputCount *)
| EBadWireCount (a b : nat) (* circuit.rs CircuitError::BadWireCount *)
| EAuth              (* common.rs: message authentication failed *)
| EOther.

(** Reasons of a Rust panic (for readability of counterexamples). *)
Inductive preason :=
| POverflow | PIndex | PAssert | PUnwrap | PDivZero | PDomain | PKey | PSlice | PTodo.

(** Result of running a Rust function: a value, an [Err], a panic, or undefined
    behaviour (unchecked access out of bounds, read of uninitialised memory). *)
Inductive outcome (A : Type) :=
| Ok (a : A)
| Err (e : err)
| Panic (r : preason)
| UB.
Arguments Ok {A} a.
Arguments Err {A} e.
Arguments Panic {A} r.
Arguments UB {A}.

Definition obind {A B} (x : outcome A) (k : A -> outcome B) : outcome B :=
  match x with
  | Ok a => k a
  | Err e => Err e
  | Panic r => Panic r
  | UB => UB
  end.

Notation "'let*' x ':=' e 'in' k" := (obind e (fun x => k))
  (at level 200, x pattern, e at level 100, k at level 200, right associativity).

(** [Option::unwrap] and friends. *)
Definition unwrap {A} (r : preason) (o : option A) : outcome A :=
  match o with Some a => Ok a | None => Panic r end.

(** Build profile: [Debug] has overflow checks and [debug_assert!]; [Release] has neither. *)
Inductive profile := Debug | Release.
Definition is_debug (p : profile) : bool := match p with Debug => true | Release => false end.

(** [assert!(b)] and [debug_assert!(b)]. *)
Definition assert_ (b : bool) : outcome unit := if b then Ok tt else Panic PAssert.
Definition debug_assert (p : profile) (b : bool) : outcome unit :=
  if is_debug p then assert_ b else Ok tt.

(** Machine arithmetic on w-bit unsigned integers: [+], [-], [*] panic on overflow in
    debug builds and wrap in release builds; [%] panics on a zero divisor. *)
Definition uadd (p : profile) (w a b : N) : outcome N :=
  if a + b <? 2 ^ w then Ok (a + b)
  else if is_debug p then Panic POverflow else Ok ((a + b) mod 2 ^ w).
Definition usub (p : profile) (w a b : N) : outcome N :=
  if b <=? a then Ok (a - b)
  else if is_debug p then Panic POverflow else Ok ((a + 2 ^ w - b) mod 2 ^ w).
Definition umul (p : profile) (w a b : N) : outcome N :=
  if a * b <? 2 ^ w then Ok (a * b)
  else if is_debug p then Panic POverflow else Ok ((a * b) mod 2 ^ w).
Definition urem (a b : N) : outcome N :=
  if b =? 0 then Panic PDivZero else Ok (a mod b).
Definition wrapping_add (w a b : N) : N := (a + b) mod 2 ^ w.
Definition wrapping_sub (w a b : N) : N := (a + 2 ^ w - b) mod 2 ^ w.
Definition wrapping_neg (w a : N) : N := (2 ^ w - a) mod 2 ^ w.
Definition wrapping_mul (w a b : N) : N := (a * b) mod 2 ^ w.

(** Bytes. *)
Definition bytes := list N.
Definition byte_ok (b : N) : Prop := b < 256.
Definition bytes_ok (l : bytes) : Prop := Forall byte_ok l.

(** Big- and little-endian fixed-width encodings ([to_be_bytes], bincode fixint). *)
Fixpoint be_bytes (k : nat) (n : N) : bytes :=
  match k with
  | O => []
  | S k' => (n / 2 ^ (8 * N.of_nat k')) mod 256 :: be_bytes k' n
  end.
Fixpoint le_bytes (k : nat) (n : N) : bytes :=
  match k with
  | O => []
  | S k' => n mod 256 :: le_bytes k' (n / 256)
  end.
Fixpoint le_value (l : bytes) : N :=
  match l with
  | [] => 0
  | b :: l' => b + 256 * le_value l'
  end.

(** Equality test on byte strings. *)
Fixpoint bytes_eqb (a b : bytes) : bool :=
  match a, b with
  | [], [] => true
  | x :: a', y :: b' => (x =? y) && bytes_eqb a' b'
  | _, _ => false
  end.

(** Monadic traversal, left to right. *)
Fixpoint mapM {A B} (f : A -> outcome B) (l : list A) : outcome (list B) :=
  match l with
  | [] => Ok []
  | a :: l' => let* b := f a in let* bs := mapM f l' in Ok (b :: bs)
  end.
Fixpoint zipM {A B C} (f : A -> B -> outcome C) (l : list A) (m : list B) : outcome (list C) :=
  match l, m with
  | a :: l', b :: m' => let* c := f a b in let* cs := zipM f l' m' in Ok (c :: cs)
  | _, _ => Ok []
  end.
Fixpoint foldM {A S} (f : S -> A -> outcome S) (l : list A) (s : S) : outcome S :=
  match l with
  | [] => Ok s
  | a :: l' => let* s' := f s a in foldM f l' s'
  end.
Fixpoint zipWith {A B C} (f : A -> B -> C) (l : list A) (m : list B) : list C :=
  match l, m with
  | a :: l', b :: m' => f a b :: zipWith f l' m'
  | _, _ => []
  end.

(** [v[i]] (checked indexing) and [v[i] = x]. *)
Definition idx {A} (l : list A) (i : nat) : outcome A := unwrap PIndex (nth_error l i).
Fixpoint set_nth {A} (l : list A) (i : nat) (x : A) : list A :=
  match l, i with
  | [], _ => []
  | _ :: l', O => x :: l'
  | a :: l', S i' => a :: set_nth l' i' x
  end.
Definition set_idx {A} (l : list A) (i : nat) (x : A) : outcome (list A) :=
  if Nat.ltb i (length l) then Ok (set_nth l i x) else Panic PIndex.

(** [HashMap] as an association list; the first binding of a key counts. The order of the
    list stands for the (arbitrary) iteration order. *)
Fixpoint alookup {K V} (eqb : K -> K -> bool) (k : K) (m : list (K * V)) : option V :=
  match m with
  | [] => None
  | (k', v) :: m' => if eqb k k' then Some v else alookup eqb k m'
  end.
Definition ainsert {K V} (eqb : K -> K -> bool) (k : K) (v : V) (m : list (K * V)) : list (K * V) :=
  (k, v) :: filter (fun kv => negb (eqb k (fst kv))) m.
