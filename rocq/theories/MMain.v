(** Model of the three programs: src/main.rs, src/server/main.rs and src/client/main.rs.

    Left out: command-line parsing (the arguments are parameters), printing, binding and
    connecting sockets.  [Args::password] is text and [as_bytes] its UTF-8 bytes, so a password is
    a byte string here.  The key returned is the one printed. *)
From Coq Require Import List NArith Bool Arith.
From Verif Require Import Base MProc MChannel MFpake.
Import ListNotations.
Open Scope N_scope.

Section Main.
Variable hmac : bytes -> bytes -> bytes.
Variable xpub : bytes -> bytes.
Variable xdh : bytes -> bytes -> bytes.
Variable sha : bytes -> bytes.
Variable p : profile.

(** [ChannelServer::next] or [connect_channel], then a protocol on the channel. *)
Definition serve {A} (secret : bytes) (q : proc A) : proc A :=
  let! key := auth_server xpub xdh secret in over_auth hmac key key q.
Definition connect {A} (secret : bytes) (q : proc A) : proc A :=
  let! key := auth_client xpub xdh secret in over_auth hmac key key q.

(** src/main.rs:28-52 [main] with [--server], and without. *)
Definition main_server (secret : bytes) (g : garbling) (ot_s : list (bytes * bytes) -> proc unit)
    (ot_r : list bool -> proc (list bytes)) (password : bytes) (threshold : N) : proc bytes :=
  serve secret (fpake_server sha p g ot_s ot_r password threshold).
Definition main_client (secret : bytes) (g : garbling) (ot_s : list (bytes * bytes) -> proc unit)
    (ot_r : list bool -> proc (list bytes)) (password : bytes) (threshold : N) : proc bytes :=
  connect secret (fpake_client sha p g ot_s ot_r password threshold).

(** [slice::chunks_exact(size)]: whole chunks only; panics for size 0. *)
Definition chunks_exact (size : nat) (file : bytes) : outcome (list bytes) :=
  if Nat.eqb size 0 then Panic PAssert
  else Ok (map (fun i => firstn size (skipn (i * size) file)) (seq 0 (length file / size))).

(** src/server/main.rs:28-47 [main]; [file] is the contents of the password file. *)
Definition many_server_main (secret mask : bytes) (g : garbling) (many_ot : nat -> list bytes -> proc unit)
    (ot_s : list (bytes * bytes) -> proc unit) (ot_r : list bool -> proc (list bytes))
    (file : bytes) (password_size : nat) (threshold : N) : proc bytes :=
  let! pws := lift (chunks_exact password_size file) in
  serve secret (mfpake_many sha p mask g many_ot ot_s ot_r pws threshold).

(** src/client/main.rs:29-37 [main]. *)
Definition many_client_main (secret : bytes) (g : garbling) (many_ot : nat -> N -> proc bytes)
    (ot_s : list (bytes * bytes) -> proc unit) (ot_r : list bool -> proc (list bytes))
    (password : bytes) (index total_passwords threshold : N) : proc bytes :=
  connect secret (mfpake_single sha p g many_ot ot_s ot_r password index total_passwords threshold).
End Main.
