(** The authenticated and the signed channels of src/common.rs and their handshakes.

    External primitives are parameters: HMAC-SHA256 (crate hmac), X25519 (x25519_dalek) and
    Ed25519 (ed25519_dalek).  A channel is modelled by what it does to the protocol that runs
    on it: [over_auth]/[over_signed] turn a protocol that calls [send]/[recv] on a [Channel]
    into the exchange of raw frames that results. *)
From Coq Require Import List NArith Bool.
From Verif Require Import Base MProc.
Import ListNotations.

Section Auth.
(** [hmac key data]: HMAC-SHA256, 32 bytes. *)
Variable hmac : bytes -> bytes -> bytes.

(** src/common.rs:103-112 [AuthChannelSender::send]: the data and its code, as two frames. *)
Definition auth_send (key data : bytes) : proc unit :=
  let! _ := send data in
  send (hmac key data).

(** src/common.rs:115-124 [AuthChannelReceiver::recv]: two frames; [verify_slice] compares
    the second one, length included, with the code of the first. *)
Definition auth_recv (key : bytes) : proc bytes :=
  let! data := recv in
  let! code := recv in
  if bytes_eqb code (hmac key data) then ret data else Done (Err EAuth).

(** A protocol run on the channel (AuthChannelSender with key [ks], AuthChannelReceiver with
    key [kr]): each [send] and [recv] is replaced by the frames above; what the protocol does
    with an [Err] of [recv] is its answer to [None]. *)
Fixpoint over_auth {A} (ks kr : bytes) (p : proc A) : proc A :=
  match p with
  | Done o => Done o
  | Snd m k => Snd m (Snd (hmac ks m) (over_auth ks kr k))
  | Rcv k =>
      Rcv (fun x =>
        match x with
        | None => over_auth ks kr (k None)
        | Some data =>
            Rcv (fun y =>
              match y with
              | None => over_auth ks kr (k None)
              | Some code =>
                  if bytes_eqb code (hmac kr data) then over_auth ks kr (k (Some data))
                  else over_auth ks kr (k None)
              end)
        end)
  end.
End Auth.

Section Handshake.
(** X25519: the public key of a secret scalar and the shared secret (crate x25519_dalek). *)
Variable xpub : bytes -> bytes.
Variable xdh : bytes -> bytes -> bytes.

(** [let theirs: [u8; 32] = theirs.try_into().unwrap(); PublicKey::try_from(theirs).unwrap()]:
    the conversion of an array cannot fail, that of a vector fails unless it has 32 bytes. *)
Definition x_public (m : bytes) : outcome bytes :=
  if Nat.eqb (length m) 32 then Ok m else Panic PUnwrap.

(** src/common.rs:156-172 [auth::ChannelServer::next] after accepting a connection, with the
    ephemeral secret as an argument.  The result is the channel key. *)
Definition auth_server (secret : bytes) : proc bytes :=
  let! _ := send (xpub secret) in
  let! m := recv_unwrap in
  let! theirs := lift (x_public m) in
  ret (xdh secret theirs).

(** src/common.rs:175-190 [auth::connect_channel] after connecting. *)
Definition auth_client (secret : bytes) : proc bytes :=
  let! m := recv_unwrap in
  let! theirs := lift (x_public m) in
  let! _ := send (xpub secret) in
  ret (xdh secret theirs).
End Handshake.

Section Signed.
(** Ed25519 (crate ed25519_dalek): public key of a secret, signing, strictness of the two
    decoders and verification. *)
Variable edpub : bytes -> bytes.
Variable edsign : bytes -> bytes -> bytes.
Variable pk_valid : bytes -> bool.
Variable sig_valid : bytes -> bool.
Variable edverify : bytes -> bytes -> bytes -> bool.

(** src/common.rs:235-242 [SignedChannelSender::send]. *)
Definition signed_send (secret data : bytes) : proc unit :=
  let! _ := send data in
  send (edsign secret data).

(** src/common.rs:245-253 [SignedChannelReceiver::recv]: [Signature::from_bytes] is
    unwrapped, [verify] is not. *)
Definition signed_recv (pk : bytes) : proc bytes :=
  let! data := recv in
  let! sg := recv in
  if negb (sig_valid sg) then Done (Panic PUnwrap)
  else if edverify pk data sg then ret data else Done (Err EAuth).

(** A protocol run on the channel. *)
Fixpoint over_signed {A} (secret pk : bytes) (p : proc A) : proc A :=
  match p with
  | Done o => Done o
  | Snd m k => Snd m (Snd (edsign secret m) (over_signed secret pk k))
  | Rcv k =>
      Rcv (fun x =>
        match x with
        | None => over_signed secret pk (k None)
        | Some data =>
            Rcv (fun y =>
              match y with
              | None => over_signed secret pk (k None)
              | Some sg =>
                  if negb (sig_valid sg) then Done (Panic PUnwrap)
                  else if edverify pk data sg then over_signed secret pk (k (Some data))
                  else over_signed secret pk (k None)
              end)
        end)
  end.

(** src/common.rs:284-298 [signed::ChannelServer::next]: the peer's key is unwrapped. *)
Definition signed_server (secret : bytes) : proc bytes :=
  let! _ := send (edpub secret) in
  let! m := recv_unwrap in
  if pk_valid m then ret m else Done (Panic PUnwrap).

(** src/common.rs:301-315 [signed::connect_channel]: the peer's key is checked with [?]. *)
Definition signed_client (secret : bytes) : proc bytes :=
  let! m := recv in
  if pk_valid m then
    let! _ := send (edpub secret) in
    ret m
  else Done (Err EOther).
End Signed.
