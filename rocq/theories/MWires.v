(** Model of src/wires.rs. *)
From Coq Require Import List NArith Bool Arith.
From Verif Require Import Base MUtil.
Import ListNotations.
Open Scope N_scope.

(** wires.rs:15-22 [Domain]. *)
Inductive domain :=
| Binary
| U8 (m : N)
| U16 (m : N)
| U8MAX
| U16MAX.

(** derived PartialEq of [Domain]. *)
Definition domain_eqb (a b : domain) : bool :=
  match a, b with
  | Binary, Binary | U8MAX, U8MAX | U16MAX, U16MAX => true
  | U8 m, U8 n | U16 m, U16 n => m =? n
  | _, _ => false
  end.

(** wires.rs:25-33 [Domain::num]. *)
Definition domain_num (d : domain) : N :=
  match d with
  | Binary => 2
  | U8 m => m
  | U16 m => m
  | U8MAX => 256
  | U16MAX => 0
  end.

(** wires.rs:35-51 [Domain::new]. *)
Definition domain_new (m : N) : outcome domain :=
  if m =? 0 then Ok U16MAX
  else if m =? 2 then Ok Binary
  else if m <? 255 then Ok (U8 m)
  else if m =? 256 then Ok U8MAX
  else if m <? 65535 then Ok (U16 m)
  else Panic PDomain.

(** wires.rs:9-13 [Wire]; [wval] stands for the array [u8; 32]. *)
Record wire := mkWire { wdom : domain; wval : bytes }.

(** wires.rs:249-251 [Wire::domain]. *)
Definition wire_domain (w : wire) : N := domain_num (wdom w).

(** bytemuck::cast between [u8; 32] and [u16; 16]; modelled for little-endian targets. *)
Fixpoint to_u16s (l : bytes) : list N :=
  match l with
  | a :: b :: l' => a + 256 * b :: to_u16s l'
  | _ => []
  end.
Definition of_u16s (l : list N) : bytes :=
  flat_map (fun x => [x mod 256; (x / 256) mod 256]) l.

(** wires.rs:125-136 [Wire::map]. The loop over 0..32 is a traversal of the array. *)
Definition wmap (w : wire) (op : N -> outcome N) : outcome wire :=
  let* v := mapM op (wval w) in Ok (mkWire (wdom w) v).

(** wires.rs:138-156 [Wire::map_as_u16]. *)
Definition wmap16 (p : profile) (w : wire) (op : N -> outcome N) : outcome wire :=
  let* out := mapM op (to_u16s (wval w)) in
  let* _ := debug_assert p (forallb (fun x => x <? wire_domain w) out) in
  Ok (mkWire (wdom w) (of_u16s out)).

(** wires.rs:158-169 [Wire::map_with]. *)
Definition wmap2 (p : profile) (w o : wire) (op : N -> N -> outcome N) : outcome wire :=
  let* _ := debug_assert p (domain_eqb (wdom w) (wdom o)) in
  let* v := zipM op (wval w) (wval o) in
  Ok (mkWire (wdom w) v).

(** wires.rs:171-192 [Wire::map_with_as_u16]. *)
Definition wmap2_16 (p : profile) (w o : wire) (op : N -> N -> outcome N) : outcome wire :=
  let* _ := debug_assert p (domain_eqb (wdom w) (wdom o)) in
  let* out := zipM op (to_u16s (wval w)) (to_u16s (wval o)) in
  let* _ := debug_assert p (forallb (fun x => x <? wire_domain w) out) in
  Ok (mkWire (wdom w) (of_u16s out)).

(** wires.rs:54-65 [Add for &Wire]. *)
Definition wadd (p : profile) (a b : wire) : outcome wire :=
  match wdom a with
  | Binary => wmap2 p a b (fun x y => Ok (N.lxor x y))
  | U8 m => wmap2 p a b (fun x y => urem (wrapping_add 8 x y) m)
  | U8MAX => wmap2 p a b (fun x y => Ok (wrapping_add 8 x y))
  | U16 m => wmap2_16 p a b (fun x y => urem (wrapping_add 16 x y) m)
  | U16MAX => wmap2_16 p a b (fun x y => Ok (wrapping_add 16 x y))
  end.

(** wires.rs:67-78 [Sub for &Wire]. *)
Definition wsub (p : profile) (a b : wire) : outcome wire :=
  match wdom a with
  | Binary => wmap2 p a b (fun x y => Ok (N.lxor x y))
  | U8 m => wmap2 p a b (fun x y =>
      let* d := usub p 8 m y in let* s := uadd p 8 x d in urem s m)
  | U8MAX => wmap2 p a b (fun x y => Ok (wrapping_sub 8 x y))
  | U16 m => wmap2_16 p a b (fun x y =>
      let* d := usub p 16 m y in let* s := uadd p 16 x d in urem s m)
  | U16MAX => wmap2_16 p a b (fun x y => Ok (wrapping_sub 16 x y))
  end.

(** wires.rs:80-91 [Neg for &Wire]. *)
Definition wneg (p : profile) (a : wire) : outcome wire :=
  match wdom a with
  | Binary => wmap a (fun x => Ok (N.lxor 255 x))
  | U8 m => wmap a (fun x => let* d := usub p 8 m x in urem d m)
  | U8MAX => wmap a (fun x => Ok (wrapping_neg 8 x))
  | U16 m => wmap16 p a (fun x => let* d := usub p 16 m x in urem d m)
  | U16MAX => wmap16 p a (fun x => Ok (wrapping_neg 16 x))
  end.

(** wires.rs:93-108 [Mul<u16> for &Wire]. For [U8] the product of two u16 may overflow;
    for [U16] the product of two u32 cast from u16 cannot. *)
Definition wmul (p : profile) (a : wire) (rhs : N) : outcome wire :=
  let* _ := debug_assert p (rhs <? wire_domain a) in
  match wdom a with
  | Binary => wmap a (fun b => Ok (if rhs =? 0 then 0 else b))
  | U8 m => wmap a (fun x => let* t := umul p 16 x rhs in let* r := urem t m in Ok (r mod 256))
  | U16 m => wmap16 p a (fun x => let* r := urem (x * rhs) m in Ok (r mod 65536))
  | U8MAX => wmap a (fun x => Ok (wrapping_mul 16 rhs x mod 256))
  | U16MAX => wmap16 p a (fun x => Ok (wrapping_mul 16 rhs x))
  end.

(** wires.rs:110-115 [Sum for Wire]: unwrap of the first element, then a left fold of [+]. *)
Definition wsum (p : profile) (l : list wire) : outcome wire :=
  match l with
  | [] => Panic PUnwrap
  | w :: l' => foldM (wadd p) l' w
  end.

(** wires.rs:118-123 [Wire::empty]. *)
Definition wire_empty : wire := mkWire Binary (repeat 0 LENGTH).

(** wires.rs:194-215 [Wire::new]: the random array is the argument [r]
    (32 bytes for Binary/U8MAX/U16MAX, 32 values below m for U8, the little-endian bytes of
    16 values below m for U16). *)
Definition wire_new (m : N) (r : bytes) : outcome wire :=
  let* d := domain_new m in Ok (mkWire d r).

(** wires.rs:217-234 [Wire::delta]. *)
Definition wire_delta (m : N) (r : bytes) : outcome wire :=
  let* w := wire_new m r in
  match wdom w with
  | Binary =>
      let* b := idx (wval w) (LENGTH - 1) in
      let* v := set_idx (wval w) (LENGTH - 1) (N.lor b 1) in Ok (mkWire (wdom w) v)
  | U8 _ | U8MAX =>
      let* v := set_idx (wval w) (LENGTH - 1) 1 in Ok (mkWire (wdom w) v)
  | U16 _ | U16MAX =>
      let* v := set_idx (to_u16s (wval w)) (LENGTH / 2 - 1) 1 in Ok (mkWire (wdom w) (of_u16s v))
  end.

(** wires.rs:236-246 [Wire::color]. The indices are within the array, so [nth] needs no panic case. *)
Definition color (w : wire) : N :=
  match wdom w with
  | Binary => N.land (nth (LENGTH - 1) (wval w) 0) 1
  | U8 _ | U8MAX => nth (LENGTH - 1) (wval w) 0
  | U16 _ | U16MAX => nth (LENGTH / 2 - 1) (to_u16s (wval w)) 0
  end.

(** wires.rs:253-260 [Wire::from_array]. *)
Definition from_array (p : profile) (values : bytes) (d : domain) : outcome wire :=
  let w := mkWire d values in
  match d with
  | Binary | U8MAX | U16MAX => Ok w
  | U8 m => wmap w (fun x => urem x m)
  | U16 m => wmap16 p w (fun x => urem x m)
  end.

(** wires.rs:262-272 [Wire::from_bytes]: as above after [try_into().unwrap()]. *)
Definition from_bytes (p : profile) (values : bytes) (d : domain) : outcome wire :=
  if Nat.eqb (length values) LENGTH then from_array p values d else Panic PUnwrap.

(** [usize::to_be_bytes] on a 64-bit target, [u16::to_be_bytes]. *)
Definition usize_be (i : nat) : bytes := be_bytes 8 (N.of_nat i).
Definition u16_be (x : N) : bytes := be_bytes 2 x.

Section Hash.
(** SHA-256, a parameter of the model (util.rs:66-88 [hash!] concatenates its arguments). *)
Variable sha256 : bytes -> bytes.

(** wires.rs:285-296 [hash_wire]. *)
Definition hash_wire (p : profile) (index : nat) (w target : wire) : outcome wire :=
  from_array p (sha256 (usize_be index ++ wval w)) (wdom target).

(** wires.rs:298-300 [hash]. *)
Definition hash (index : nat) (x : N) (w : wire) : bytes :=
  sha256 (usize_be index ++ u16_be x ++ wval w).
End Hash.
