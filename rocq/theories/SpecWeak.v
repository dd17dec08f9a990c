(** Somebody between the two programs who replaces the two keys of the handshake of common.rs:156-190 by a weak one
    and leaves everything else as it is. *)
From Coq Require Import List NArith Bool.
From Verif Require Import Base MProc SpecMiddle.
Import ListNotations.

(** A public key [w] of 32 bytes that leads to the secret [z] for every scalar.  X25519 has such points of small order,
    among them the string of zeros, for which the result is the string of zeros (RFC 7748, section 6.1). *)
Definition weak_key (xdh : bytes -> bytes -> bytes) (w z : bytes) : Prop := length w = 32%nat /\ forall s, xdh s w = z.

(** Passing on every frame as it is. *)
Definition other (s : side) : side := match s with L => R | R => L end.
Inductive forwards {M} : man M -> Prop :=
| forwards_end x : forwards (Gone x)
| forwards_one s k : (forall m, forwards (k m)) -> forwards (From s (fun m => To (other s) m (k m))).

(** The keys of both are replaced before. *)
Definition weaken {M} (w : bytes) (b : man M) : man M := From L (fun _ => To R w (From R (fun _ => To L w b))).
