(** C104: strings. *)
From Coq Require Import List NArith Bool Lia Arith.
From Verif Require Import Base MBincode MProc MOt SpecBincode SpecText PBase PBincode PProc POt PText.
Import ListNotations.
Open Scope N_scope.

(** The decoder of strings takes exactly the encodings of sequences of Unicode scalar values. *)
Theorem C104_utf8 : forall s, utf8 s = true <-> text s.
Proof. intros s. split; [apply (utf8_text (length s)); lia|apply text_utf8]. Qed.
Print Assumptions C104_utf8.

(** What a peer offers is read exactly if its protocol name is text; otherwise the negotiation of every OT
    ends with the decoding error. *)
Theorem C104_offer : forall n s, usize_ok n -> blob_ok s ->
  (text s -> deserialize dec_props (enc_props (mkProps n s)) = Ok (mkProps n s)) /\
  (~ text s -> deserialize dec_props (enc_props (mkProps n s)) = Err EBincode /\
     forall a rest, feed (validate_properties a) (enc_props (mkProps n s) :: rest) = (Err EBincode, [enc_props a])).
Proof.
  intros n s Hn Hs. assert (D : deserialize dec_props (enc_props (mkProps n s)) = if utf8 s then Ok (mkProps n s) else Err EBincode).
  { unfold deserialize, dec_props, enc_props. cbn [pr_size pr_protocol]. rewrite rt_usize by exact Hn. cbn [obind].
    unfold dec_string. rewrite <- (app_nil_r (enc_bytes s)), rt_bytes by exact Hs. cbn [obind]. now destruct (utf8 s). }
  split; intros T.
  - rewrite D. now rewrite (proj2 (C104_utf8 s) T).
  - destruct (utf8 s) eqn:U; [exfalso; apply T, C104_utf8, U|]. split; [exact D|]. intros a rest.
    remember (enc_props (mkProps n s)) as m. unfold validate_properties. cbn -[deserialize]. rewrite D. reflexivity.
Qed.
Print Assumptions C104_offer.

(** Two different texts are two different byte strings: no two names are confused. *)
Theorem C104_injective : forall c d x y, scalar c -> scalar d -> encode_scalar c ++ x = encode_scalar d ++ y -> c = d /\ x = y.
Proof. exact encode_inj. Qed.
Print Assumptions C104_injective.

(** The corners: the first and the last of each length, the surrogates, overlong forms, cut sequences. *)
Example C104_case :
  map encode_scalar [0; 127; 128; 2047; 2048; 55295; 57344; 65535; 65536; 1114111] =
  [[0]; [127]; [194; 128]; [223; 191]; [224; 160; 128]; [237; 159; 191]; [238; 128; 128]; [239; 191; 191]; [240; 144; 128; 128]; [244; 143; 191; 191]] /\
  map utf8 [[0; 194; 128; 223; 191]; [224; 160; 128; 127]; [237; 159; 191]; [238; 128; 128]; [240; 144; 128; 128]; [244; 143; 191; 191]] = repeat true 6 /\
  map utf8 [[128]; [192; 128]; [193; 191]; [194]; [194; 192]; [224; 159; 191]; [237; 160; 128]; [239; 191]; [240; 143; 191; 191]; [244; 144; 128; 128]; [245; 128; 128; 128]] = repeat false 11.
Proof. repeat split; reflexivity. Qed.
Example C104_not_text : ~ text [192; 128] /\ blob_ok [192; 128] /\ usize_ok 1 /\ text chou_orlandi /\
  feed (validate_properties (mkProps 1 chou_orlandi)) [enc_props (mkProps 1 [192; 128])] = (Err EBincode, [enc_props (mkProps 1 chou_orlandi)]).
Proof.
  assert (B : blob_ok [192; 128]) by (split; [reflexivity|repeat constructor]). assert (U : usize_ok 1) by reflexivity.
  assert (T : ~ text [192; 128]) by (intros T; apply C104_utf8 in T; discriminate).
  split; [exact T|]. split; [exact B|]. split; [exact U|]. split; [apply C104_utf8; reflexivity|].
  apply (proj2 (C104_offer 1 [192; 128] U B) T).
Qed.
