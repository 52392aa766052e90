(** Property theorems C22-C25: java.util.Base64.
    [rfc4648], [well_formed], [bytes_of], [folded] are in Base64Spec.v. *)

From Coq Require Import ZArith List Lia Bool String.
From Verif Require Import Base Bits CppText TextSpec TextLemmas Base64Model Base64Spec Base64Proofs Base64Proofs2 Base64Proofs3 Base64Proofs4 Base64Proofs5.
Import ListNotations.
Open Scope Z_scope.

Definition encoder_for (url pad : bool) : encoder :=
  let e := if url then getUrlEncoder else getEncoder in if pad then e else withoutPadding e.
Definition decoder_for (url : bool) : decoder := if url then getUrlDecoder else getDecoder.
Lemma encoder_for_eq url pad : encoder_for url pad = mkEnc url [] (-1) pad.
Proof. destruct url, pad; reflexivity. Qed.
Lemma decoder_for_eq url : decoder_for url = mkDec url false.
Proof. destruct url; reflexivity. Qed.
Lemma rfc_small url pad l : zlen (rfc4648 url pad l) <= int_max - 3 -> zlen l + 2 <= int_max.
Proof.
  intros H. pose proof (zlen_nonneg l). unfold int_max in *. destruct pad; [rewrite rfc_len_pad in H|rewrite rfc_len_nopad in H; destruct (_ =? 0) in H]; dm.
Qed.
Lemma encode_basic url pad l : Forall byte l -> zlen (rfc4648 url pad l) <= int_max - 3 ->
  encode HW (encoder_for url pad) l = Ok (rfc4648 url pad l) /\
  forall dst, encodeInto HW (encoder_for url pad) l dst =
    if zlen dst <? zlen (rfc4648 url pad l) then Throw InterruptedException
    else Ok (zlen (rfc4648 url pad l), rfc4648 url pad l ++ skipn (List.length (rfc4648 url pad l)) dst).
Proof.
  intros F H. rewrite encoder_for_eq. destruct (encode_ok (mkEnc url [] (-1) pad) l) as (out & E & R); auto.
  - left. auto.
  - eapply rfc_small, H.
  - unfold encodes in E. cbn in E. subst out. apply R. unfold int_max in *. lia.
Qed.

(** ** C22: round trip *)

Theorem C22_round_trip : forall url pad x, Forall byte x -> zlen (rfc4648 url pad x) <= int_max - 3 ->
  exists text, encode HW (encoder_for url pad) x = Ok text /\ decode HW (decoder_for url) text = Ok x.
Proof. intros url pad x F H. exists (rfc4648 url pad x). rewrite decoder_for_eq. split; [apply encode_basic; auto|apply roundtrip; auto]. Qed.
Print Assumptions C22_round_trip.

(** Through strings. *)
Theorem C22_round_trip_string : forall url pad x, Forall byte x -> zlen (rfc4648 url pad x) <= int_max - 3 ->
  exists text, encodeToString HW (encoder_for url pad) x = Ok text /\ decodeString HW (decoder_for url) text = Ok x.
Proof. intros. apply C22_round_trip; auto. Qed.
Print Assumptions C22_round_trip_string.

(** Into caller-supplied arrays: the result arrives in the prefix and the rest is untouched. *)
Theorem C22_round_trip_into : forall url pad x dst, Forall byte x -> zlen (rfc4648 url pad x) <= int_max - 3 ->
  exists text, encode HW (encoder_for url pad) x = Ok text /\
  decodeInto HW (decoder_for url) text dst =
    if zlen dst <? zlen x then Throw InterruptedException else Ok (zlen x, x ++ skipn (List.length x) dst).
Proof.
  intros url pad x dst F H. exists (rfc4648 url pad x). split; [apply encode_basic; auto|]. rewrite decoder_for_eq.
  destruct (rfc_digits url pad x F) as (ds & pd & E & Fd & Eb & C). destruct (digits_alpha url false ds Fd) as [D P].
  assert (W : pd = [] \/ (pd = [61; 61] /\ zlen (map (alpha url) ds) mod 4 = 2) \/ (pd = [61] /\ zlen (map (alpha url) ds) mod 4 = 3)).
  { rewrite zlen_map. destruct C as [[-> _]|[?|?]]; auto. }
  assert (S : stops (plain (mkDec url false)) pd /\ Forall byte pd).
  { destruct C as [[-> _]|[[-> _]|[-> _]]]; split; try exact I; try apply not_plain_61; repeat constructor; unfold byte; lia. }
  rewrite E in *. unfold decodeInto. pose proof (zlen_nonneg x).
  assert (L : cap (zlen ds) = zlen x) by (rewrite <- Eb, bytes_len; auto).
  destruct (Z.eq_dec (zlen (map (alpha url) ds ++ pd)) 0) as [Z0|Z0].
  - apply zlen_0 in Z0. rewrite Z0. apply app_eq_nil in Z0. destruct Z0 as [Z1 _]. apply map_eq_nil in Z1. subst ds. cbn in Eb. subst x.
    pose proof (zlen_nonneg dst). change (decOutLength HW (mkDec url false) []) with (Ok 0). cbn [bind]. change (zlen (@nil Z)) with 0. destruct (zlen dst <? 0); auto.
  - assert (2 <= zlen (map (alpha url) ds ++ pd)).
    { rewrite zlen_app, zlen_map in *. pose proof (zlen_nonneg ds). pose proof (zlen_nonneg pd). destruct C as [[-> [C _]]|[[-> _]|[-> C]]].
      - change (zlen (@nil Z)) with 0 in *. enough (zlen ds <> 1) by lia. intros Q. rewrite Q in C. apply C. reflexivity.
      - change (zlen [61; 61]) with 2. lia.
      - change (zlen [61]) with 1. enough (zlen ds <> 0) by lia. intros Q. rewrite Q in C. discriminate C. }
    destruct (decOut_ok HW url (map (alpha url) ds) pd P ltac:(lia)) as (N & -> & _ & EN).
    rewrite EN by (destruct W as [?|[?|?]]; auto). rewrite zlen_map, L. cbn [bind]. destruct (Z.ltb_spec (zlen dst) (zlen x)); auto.
    rewrite <- (firstn_skipn (List.length x) dst) at 1. rewrite decoding_basic; try tauto.
    + rewrite D, Eb, zlen_map, L. destruct C as [[-> [C _]]|[[-> C]|[-> C]]]; cbn [verdict]; [replace (_ =? 1) with false by lia; auto| |]; rewrite C; reflexivity.
    + rewrite zlen_map, L. unfold zlen in *. rewrite firstn_length. lia.
Qed.
Print Assumptions C22_round_trip_into.

Example C22_example : Forall byte (T "hello!!") /\ encode HW getEncoder (T "hello!!") = Ok (T "aGVsbG8hIQ==") /\
  decode HW getDecoder (T "aGVsbG8hIQ==") = Ok (T "hello!!") /\ encode HW (withoutPadding getUrlEncoder) [251; 255; 254; 1] = Ok (T "-__-AQ") /\
  decode HW getUrlDecoder (T "-__-AQ") = Ok [251; 255; 254; 1].
Proof. split; [repeat constructor; unfold byte; lia|]. vm_compute. auto. Qed.

(** ** C23: the encoder is RFC 4648 *)

Theorem C23_encode_rfc4648 : forall url pad x, Forall byte x -> zlen (rfc4648 url pad x) <= int_max - 3 ->
  encode HW (encoder_for url pad) x = Ok (rfc4648 url pad x).
Proof. intros. apply encode_basic; auto. Qed.
Print Assumptions C23_encode_rfc4648.

Theorem C23_encode_into : forall url pad x dst, Forall byte x -> zlen (rfc4648 url pad x) <= int_max - 3 ->
  encodeInto HW (encoder_for url pad) x dst =
    if zlen dst <? zlen (rfc4648 url pad x) then Throw InterruptedException
    else Ok (zlen (rfc4648 url pad x), rfc4648 url pad x ++ skipn (List.length (rfc4648 url pad x)) dst).
Proof. intros. apply encode_basic; auto. Qed.
Print Assumptions C23_encode_into.

(** Length and alphabet. *)
Theorem C23_length_alphabet : forall url pad x, Forall byte x -> zlen (rfc4648 url pad x) <= int_max - 3 ->
  exists text, encode HW (encoder_for url pad) x = Ok text /\
  zlen text = (if pad then (zlen x + 2) / 3 * 4 else zlen x / 3 * 4 + (if zlen x mod 3 =? 0 then 0 else zlen x mod 3 + 1)) /\
  Forall (fun c => in_alphabet url c \/ (pad = true /\ c = pad_char)) text.
Proof.
  intros url pad x F H. exists (rfc4648 url pad x). split; [apply encode_basic; auto|]. split.
  - destruct pad; [apply rfc_len_pad|apply rfc_len_nopad].
  - clear H. revert F. revert x. apply (triples2 (fun x => Forall byte x -> Forall (fun c => in_alphabet url c \/ pad = true /\ c = pad_char) (rfc4648 url pad x))).
    + constructor.
    + intros a F. inversion F as [|? ? Ha _]; subst. unfold byte in Ha. cbn [rfc4648].
      repeat (apply Forall_cons; [left; eexists; split; [|reflexivity]; unfold sextet; dm|]). destruct pad; repeat apply Forall_cons; auto.
    + intros a b F. inversion F as [|? ? Ha F']; subst. inversion F' as [|? ? Hb _]; subst. unfold byte in *. cbn [rfc4648].
      repeat (apply Forall_cons; [left; eexists; split; [|reflexivity]; unfold sextet; dm|]). destruct pad; repeat apply Forall_cons; auto.
    + intros a b c t IH F. inversion F as [|? ? Ha F']; subst. inversion F' as [|? ? Hb F2]; subst. inversion F2 as [|? ? Hc F3]; subst. unfold byte in Ha, Hb, Hc. cbn [rfc4648].
      specialize (IH F3). repeat (apply Forall_cons; [left; eexists; (split; [|reflexivity]); unfold sextet; clear - Ha Hb Hc; dm|]). auto.
Qed.
Print Assumptions C23_length_alphabet.

(** ISO C++11 gives the encoder no meaning on 3 or more bytes: the three
    [source\[sourcePosition++\]] of one expression are unsequenced. *)
Theorem C23_iso : forall url pad x, 3 <= zlen x -> zlen x + 2 <= int_max / 2 -> encode ISO (encoder_for url pad) x = UB Unsequenced.
Proof.
  intros url pad x H1 H2. rewrite encoder_for_eq. unfold encode.
  assert (exists out, zlen out <= int_max /\ encodes (mkEnc url [] (-1) pad) x out) as (out & Lo & E).
  { exists (rfc4648 url pad x). split; [|reflexivity]. pose proof (rfc_len_le url pad x). change (int_max / 2) with 1073741823 in H2. unfold int_max in *. dm. }
  rewrite (outLength_ok ISO _ x out); auto; [|left; auto|change (int_max / 2) with 1073741823 in H2; unfold int_max in *; lia].
  cbn [bind]. unfold newArray. pose proof (zlen_nonneg out). replace (_ <? 0) with false by lia. cbn [bind]. unfold encoding. cbn [lineMax]. change (-1 >? 0) with false. cbn [andb].
  rewrite Z.quot_div_nonneg by lia. assert (3 <= zlen x / 3 * 3) by (clear - H1; dm).
  destruct (Z.to_nat (zlen x / 3 * 3)) eqn:Q; [lia|]. cbn [outer]. replace (_ <? _) with true by lia.
  rewrite Z.add_0_l, Z.min_id, Z.sub_0_r, Q. cbn [inner]. replace (_ <? _) with true by lia. reflexivity.
Qed.
Print Assumptions C23_iso.

Example C23_example : rfc4648 false true (T "Ma") = T "TWE=" /\ rfc4648 false true (T "Man") = T "TWFu" /\ rfc4648 true false [255; 239] = T "_-8" /\
  encodeInto HW getEncoder (T "Ma") (T "........") = Ok (4, T "TWE=....").
Proof. vm_compute. auto. Qed.

(** ** C24: the decoder on every input *)

(** The outcome on every byte sequence. Either the text is well formed and
    its bytes come back, or it is not and an exception is raised, or - only
    for a well-formed padded prefix of more than 46 characters followed by
    something else - building the exception message reads out of bounds. *)
Theorem C24_decode_exact_partial : forall m url s, Forall byte s -> zlen s <= int_max - 3 ->
  (exists ds, well_formed url s ds /\ decode m (decoder_for url) s = Ok (bytes_of ds)) \/
  ((forall ds, ~ well_formed url s ds) /\ decode m (decoder_for url) s = Throw InterruptedException) \/
  ((forall ds, ~ well_formed url s ds) /\ decode m (decoder_for url) s = UB OutOfBounds /\
   exists s1 s2 ds, s = s1 ++ [pad_char] ++ s2 /\ s2 <> [] /\ well_formed url (s1 ++ [pad_char]) ds /\ 46 < zlen s1 + 1).
Proof.
  intros m url s F H. rewrite decoder_for_eq. destruct (plain_split (mkDec url false) s F) as (xs & r & -> & P & S).
  apply Forall_app in F. destruct F as [Fx Fr]. rewrite decode_basic by auto.
  assert (NW : ~ ((r = [] /\ zlen xs mod 4 <> 1) \/ (r = [61; 61] /\ zlen xs mod 4 = 2) \/ (r = [61] /\ zlen xs mod 4 = 3)) -> forall ds, ~ well_formed url (xs ++ r) ds).
  { intros N ds W. apply N. destruct (wf_split url xs r ds P S W) as [-> C]. rewrite digits_len_eq in C by auto. auto. }
  pose proof (zlen_nonneg xs).
  destruct r as [|c r'].
  - cbn [verdict]. destruct (Z.eqb_spec (zlen xs mod 4) 1) as [Q|Q].
    + right. left. split; auto. apply NW. intros [[_ ?]|[[? _]|[? _]]]; [lia|discriminate|discriminate].
    + left. exists (digits (mkDec url false) xs). split; auto. apply wf_join; auto.
  - cbn [verdict]. destruct (Z.eqb_spec c 61) as [->|Nc]; cbn [negb].
    2:{ right. left. split; auto. apply NW. intros [[? _]|[[? _]|[? _]]]; congruence. }
    destruct (Z.eqb_spec (zlen xs mod 4) 2) as [Q2|Q2].
    + destruct r' as [|y r''].
      * right. left. split; auto. apply NW. intros [[? _]|[[? _]|[_ ?]]]; [discriminate|discriminate|lia].
      * destruct (Z.eqb_spec y 61) as [->|Ny].
        2:{ right. left. split; auto. apply NW. intros [[? _]|[[? _]|[? _]]]; congruence. }
        destruct r'' as [|u r3].
        -- left. exists (digits (mkDec url false) xs). split; auto. apply wf_join; auto.
        -- assert (N : forall ds, ~ well_formed url (xs ++ 61 :: 61 :: u :: r3) ds) by (apply NW; intros [[? _]|[[? _]|[? _]]]; discriminate).
           unfold ending_message. destruct (Z.leb_spec (zlen xs + 2) 46); right; [left; auto|right]. split; auto. split; auto.
           exists (xs ++ [61]), (u :: r3), (digits (mkDec url false) xs). rewrite <- !app_assoc. split; auto. split; [discriminate|]. split; [apply wf_join; auto|rewrite zlen_app; change (zlen [61]) with 1; lia].
    + destruct (Z.eqb_spec (zlen xs mod 4) 3) as [Q3|Q3].
      2:{ right. left. split; auto. apply NW. intros [[? _]|[[_ ?]|[_ ?]]]; [discriminate|lia|lia]. }
      destruct r' as [|u r3].
      * left. exists (digits (mkDec url false) xs). split; auto. apply wf_join; auto.
      * assert (N : forall ds, ~ well_formed url (xs ++ 61 :: u :: r3) ds) by (apply NW; intros [[? _]|[[_ ?]|[? _]]]; [discriminate|lia|discriminate]).
        unfold ending_message. destruct (Z.leb_spec (zlen xs + 1) 46); right; [left; auto|right]. split; auto. split; auto.
        exists xs, (u :: r3), (digits (mkDec url false) xs). split; auto. split; [discriminate|]. split; [apply wf_join; auto|lia].
Qed.
Print Assumptions C24_decode_exact_partial.

(** A byte outside the alphabet (other than the pad) is never accepted. *)
Theorem C24_foreign_byte_rejected : forall m url s b, Forall byte s -> zlen s <= int_max - 3 ->
  In b s -> b <> pad_char -> ~ in_alphabet url b -> forall out, decode m (decoder_for url) s <> Ok out.
Proof.
  intros m url s b F H Hb N A out. destruct (C24_decode_exact_partial m url s F H) as [(ds & W & ->)|[(_ & ->)|(_ & -> & _)]]; try discriminate.
  exfalso. apply A. destruct W as [Fd C].
  assert (In b (map (alpha url) ds)).
  { destruct C as [[-> _]|[[-> _]|[-> _]]]; auto; apply in_app_or in Hb; destruct Hb as [?|Hb]; auto; cbn in Hb; unfold pad_char in *; exfalso; repeat (destruct Hb as [Hb|Hb]; [congruence|]); auto. }
  apply in_map_iff in H0. destruct H0 as (d & <- & Hd). rewrite Forall_forall in Fd. exists d. auto.
Qed.
Print Assumptions C24_foreign_byte_rejected.

(** Texts of at most 46 characters never reach undefined behaviour. *)
Theorem C24_short_total : forall m url s, Forall byte s -> zlen s <= 46 ->
  (exists out, decode m (decoder_for url) s = Ok out) \/ decode m (decoder_for url) s = Throw InterruptedException.
Proof.
  intros m url s F H. destruct (C24_decode_exact_partial m url s F ltac:(unfold int_max; lia)) as [(ds & _ & ->)|[(_ & ->)|(_ & _ & s1 & s2 & ds & -> & N & _ & L)]]; eauto.
  exfalso. rewrite !zlen_app in H. change (zlen [pad_char]) with 1 in H. pose proof (zlen_nonneg s2). lia.
Qed.
Print Assumptions C24_short_total.

(** The violation: 50 characters suffice (48 digits complete 36 zero bytes, then "QQ==" and a stray "x"). *)
Theorem C24_decode_never_out_of_bounds_refuted : ~ (forall s, Forall byte s -> zlen s <= int_max - 3 ->
  (exists out, decode HW (decoder_for false) s = Ok out) \/ (exists e, decode HW (decoder_for false) s = Throw e)).
Proof.
  intros H. specialize (H (repeat 65 48 ++ T "QQ==x")). destruct H as [[? E]|[? E]]; try (vm_compute in E; discriminate E).
  - apply Forall_app. split; [apply Forall_forall; intros x Hx; apply repeat_spec in Hx; subst; unfold byte; lia|repeat constructor; unfold byte; lia].
  - vm_compute. discriminate.
Qed.
Print Assumptions C24_decode_never_out_of_bounds_refuted.

Example C24_example : decode HW getDecoder (T "QUJD") = Ok (T "ABC") /\ decode HW getDecoder (T "QUJ") = Ok (T "AB") /\
  decode HW getDecoder (T "QU=") = Throw InterruptedException /\ decode HW getDecoder (T "QU*D") = Throw InterruptedException /\
  decode HW getDecoder (T "QUI=QUI=") = Throw InterruptedException /\ decode HW getDecoder (repeat 65 48 ++ T "QQ==x") = UB OutOfBounds.
Proof. vm_compute. repeat split; reflexivity. Qed.

(** ** C25: MIME *)

(** A separator that the factory admits. *)
Definition plain_separator (sep : list Z) : Prop := Forall (fun b => byte b /\ b <> pad_char /\ ~ in_alphabet false b) sep.

Lemma separator_junk sep : plain_separator sep -> Forall (junk false) sep.
Proof. intros H. eapply Forall_impl; [|exact H]. intros b (B & N & A). split; auto. split; auto. apply val_junk; auto. Qed.
Lemma separator_ok_true sep : plain_separator sep -> separator_ok sep = Ok true.
Proof.
  induction 1 as [|b sep (B & N & A) F IH]; auto. cbn [separator_ok]. rewrite land255, table_at by auto. cbn [bind]. rewrite val_junk by auto. auto.
Qed.
Lemma separator_ok_false sep : Forall byte sep -> ~ plain_separator sep -> separator_ok sep = Ok false.
Proof.
  induction 1 as [|b sep B F IH]; intros N; [exfalso; apply N; constructor|]. cbn [separator_ok]. rewrite land255, table_at by auto. cbn [bind].
  destruct (Z.eqb_spec (val false b) (-1)) as [E|E]; auto. apply IH. intros P. apply N. constructor; auto.
  destruct (val_cases false b B) as [[? Q]|[[Nb _]|[_ [Hs _]]]]; [lia| |unfold sextet in Hs; lia]. split; auto. split; auto.
  intros (d & Hd & ->). destruct (val_alpha false d Hd) as [Q _]. unfold sextet in Hd. lia.
Qed.
Lemma crlf_plain : plain_separator [13; 10].
Proof.
  assert (A : forall c, c < 43 -> ~ in_alphabet false c).
  { intros c Hc (d & Hd & Q). unfold alpha, sextet in *. destruct (Z.ltb_spec d 26), (Z.ltb_spec d 52), (Z.ltb_spec d 62), (Z.eqb_spec d 62); lia. }
  repeat apply Forall_cons; try apply Forall_nil; (split; [unfold byte; lia|split; [discriminate|apply A; lia]]).
Qed.
Lemma round4 n : 0 <= n -> Z.shiftl (Z.shiftr n 2) 2 = n / 4 * 4.
Proof. intros. rewrite Z.shiftl_mul_pow2, Z.shiftr_div_pow2 by lia. auto. Qed.

(** Every admitted configuration with lines of at least 4 characters, with or
    without padding: the output is the RFC 4648 text, folded into lines of
    lineLength rounded down to a multiple of 4. *)
Theorem C25_mime_encoder_folds_partial : forall lineLength sep pad x, 4 <= lineLength <= int_max -> plain_separator sep -> Forall byte x -> zlen x + 2 <= int_max ->
  exists e out, getMimeEncoderWith lineLength sep = Ok e /\ folded (lineLength / 4 * 4) sep (rfc4648 false pad x) out /\
  (zlen out <= int_max -> encode HW (if pad then e else withoutPadding e) x = Ok out).
Proof.
  intros n sep pad x Hn Ps F Hx. unfold getMimeEncoderWith. rewrite separator_ok_true by auto. cbn [bind negb]. replace (n <? 0) with false by lia. rewrite round4 by lia.
  exists (mkEnc false sep (n / 4 * 4) true).
  destruct (encode_ok (mkEnc false sep (n / 4 * 4) pad) x) as (out & E & R); auto.
  - right. cbn [lineMax]. clear - Hn. dm.
  - exists out. split; auto. unfold encodes in E. cbn [lineMax isUrl doPadding newLine] in E. replace (n / 4 * 4 <? 0) with false in E by (clear - Hn; dm). split; auto.
    intros Ho. destruct pad; apply R; auto.
Qed.
Print Assumptions C25_mime_encoder_folds_partial.

Theorem C25_default_mime_encoder : forall x, Forall byte x -> zlen x + 2 <= int_max ->
  exists out, folded 76 [13; 10] (rfc4648 false true x) out /\ (zlen out <= int_max -> encode HW getMimeEncoder x = Ok out).
Proof.
  intros x F Hx. destruct (encode_ok getMimeEncoder x) as (out & E & R); auto; [right; cbn; lia|]. exists out. split; [exact E|]. intros. apply R; auto.
Qed.
Print Assumptions C25_default_mime_encoder.

(** What folding means: removing the separators gives back the text, and no line is longer than n. *)
Theorem C25_folded_lines : forall n sep l r, folded n sep l r -> exists lines,
  l = List.concat lines /\ Forall (fun x => zlen x <= n) lines /\ r = match lines with [] => [] | x :: t => x ++ List.concat (map (fun y => sep ++ y) t) end.
Proof.
  induction 1 as [l Hl|a b r Ha Hb Hf (lines & E1 & F & E2)].
  - exists [l]. cbn [List.concat map app]. rewrite !app_nil_r. split; [auto|]. split; auto.
  - exists (a :: lines). cbn [List.concat]. rewrite E1. split; auto. split; [constructor; auto; lia|].
    destruct lines as [|x t]; [cbn in E1; contradiction|]. cbn [map List.concat]. rewrite E2, <- !app_assoc. auto.
Qed.
Print Assumptions C25_folded_lines.

Theorem C25_bad_separator_rejected : forall lineLength sep, Forall byte sep -> ~ plain_separator sep ->
  getMimeEncoderWith lineLength sep = Throw InterruptedException.
Proof. intros n sep F N. unfold getMimeEncoderWith. rewrite separator_ok_false by auto. auto. Qed.
Print Assumptions C25_bad_separator_rejected.

Theorem C25_negative_length_is_basic : forall lineLength sep, lineLength < 0 -> plain_separator sep -> getMimeEncoderWith lineLength sep = Ok getEncoder.
Proof. intros n sep H P. unfold getMimeEncoderWith. rewrite separator_ok_true by auto. cbn [bind negb]. replace (n <? 0) with true by lia. auto. Qed.
Print Assumptions C25_negative_length_is_basic.

(** Line lengths 0..3 round to 0 and are not treated as "no line breaks": a
    separator is written into a buffer that was sized without it. Encoding 7
    bytes throws out_of_range. *)
Theorem C25_short_line_refuted : forall lineLength, 0 <= lineLength <= 3 ->
  exists e, getMimeEncoderWith lineLength [13; 10] = Ok e /\ encode HW e (T "abcdefg") = Throw OutOfRange.
Proof.
  intros n H. assert (n = 0 \/ n = 1 \/ n = 2 \/ n = 3) as [->|[->|[->| ->]]] by lia;
    exists (mkEnc false [13; 10] 0 true); split; vm_compute; reflexivity.
Qed.
Print Assumptions C25_short_line_refuted.

(** The MIME decoder on every MIME encoding: it looks bytes up in the source
    instead of the table, so it succeeds exactly when every character other
    than the pad is smaller than the length of the text. *)
Theorem C25_mime_decode_exact : forall m n sep pad x out, 0 < n -> n mod 4 = 0 -> plain_separator sep -> Forall byte x ->
  folded n sep (rfc4648 false pad x) out -> zlen out <= int_max - 3 ->
  decode m getMimeDecoder out =
    if existsb (fun b => negb (b =? pad_char) && (zlen out <=? b)) out then Throw OutOfRange else Ok x.
Proof. intros. apply (mime_exact m false pad n sep); auto. apply separator_junk; auto. Qed.
Print Assumptions C25_mime_decode_exact.

(** The violation: no non-empty message whose encoding has at most 43 characters can be decoded. *)
Theorem C25_mime_round_trip_refuted : forall m x, Forall byte x -> x <> [] -> zlen (rfc4648 false true x) <= 43 ->
  exists out, encode HW getMimeEncoder x = Ok out /\ decode m getMimeDecoder out = Throw OutOfRange.
Proof.
  intros m x F N L. pose proof (rfc_small false true x ltac:(unfold int_max; lia)) as Lx.
  destruct (C25_default_mime_encoder x F Lx) as (out & Hf & E).
  assert (out = rfc4648 false true x) as ->.
  { inversion Hf as [l Hl|a b r Ha Hb Hr Hd]; auto. exfalso. assert (zlen a + zlen b <= 43) by (rewrite <- zlen_app, Hd; auto). pose proof (zlen_nonneg b). lia. }
  exists (rfc4648 false true x). split; [apply E; unfold int_max; lia|].
  rewrite (C25_mime_decode_exact m 76 [13; 10] true x); auto; try reflexivity; [|apply crlf_plain|unfold int_max; lia].
  replace (existsb _ _) with true; auto. symmetry.
  assert (G : forall d, sextet d -> 43 <= alpha false d /\ alpha false d <> 61).
  { intros d Hd. unfold alpha, sextet in *. destruct (Z.ltb_spec d 26), (Z.ltb_spec d 52), (Z.ltb_spec d 62), (Z.eqb_spec d 62); lia. }
  assert (Q : exists d t, sextet d /\ rfc4648 false true x = alpha false d :: t).
  { destruct x as [|a [|b [|c t]]]; [contradiction|..]; inversion F as [|? ? Ha _]; subst; (eexists; eexists; split; [|reflexivity]; unfold byte, sextet in *; clear - Ha; dm). }
  destruct Q as (d & t & Hd & Q). destruct (G d Hd) as [G1 G2].
  apply existsb_exists. exists (alpha false d). rewrite Q in *. split; [left; auto|]. unfold pad_char. lia.
Qed.
Print Assumptions C25_mime_round_trip_refuted.

(** What does hold: a text of at least 256 characters, or of at least 123 with
    the standard CRLF separator, decodes to the original bytes. *)
Theorem C25_mime_round_trip_partial : forall m n sep pad x out, 0 < n -> n mod 4 = 0 -> plain_separator sep -> Forall byte x ->
  folded n sep (rfc4648 false pad x) out -> 256 <= zlen out <= int_max - 3 -> decode m getMimeDecoder out = Ok x.
Proof.
  intros m n sep pad x out Hn M P F Hf Ho. rewrite (C25_mime_decode_exact m n sep pad x out) by (auto; lia).
  assert (Forall byte out).
  { clear Ho. pose proof (rfc_byte false pad x F) as B. revert B. induction Hf as [l Hl|a b r Ha Hb Hf IH]; intros B; auto.
    apply Forall_app in B. destruct B. apply Forall_app. split; auto. apply Forall_app. split; auto. eapply Forall_impl; [|exact P]. intros ? Q. apply Q. }
  destruct (existsb _ out) eqn:E; auto. apply existsb_exists in E. destruct E as (b & Ib & E). rewrite Forall_forall in H. apply H in Ib. unfold byte in Ib. lia.
Qed.
Print Assumptions C25_mime_round_trip_partial.

Theorem C25_default_mime_round_trip_partial : forall m x out, Forall byte x -> folded 76 [13; 10] (rfc4648 false true x) out -> 123 <= zlen out <= int_max - 3 ->
  encode HW getMimeEncoder x = Ok out /\ decode m getMimeDecoder out = Ok x.
Proof.
  intros m x out F Hf Ho. destruct (encode_ok getMimeEncoder x) as (out' & E & R); auto.
  { right; cbn; lia. }
  { pose proof (folded_len 76 [13; 10] _ _ ltac:(lia) Hf) as L. apply (rfc_small false true). destruct (rfc4648 false true x) as [|y l] eqn:Q; [cbn; unfold int_max; lia|].
    rewrite <- Q in *. assert (Lp := zlen_nonneg l). rewrite L in Ho by (rewrite Q; discriminate). change (zlen [13; 10]) with 2 in Ho.
    assert (0 < zlen (rfc4648 false true x)) by (rewrite Q, zlen_cons; lia). clear - Ho H. unfold int_max in *. dm. }
  assert (D : forall n sep l r1 r2, 0 < n -> folded n sep l r1 -> folded n sep l r2 -> r1 = r2).
  { intros n sep l r1 r2 Hn H1. revert r2. induction H1 as [l Hl|a b r Ha Hb Hf1 IH]; intros r2 H2; inversion H2 as [l' Hl'|a' b' r' Ha' Hb' Hf' Hd]; subst; auto.
    - exfalso. rewrite zlen_app in Hl. destruct b'; [contradiction|]. rewrite zlen_cons in Hl. pose proof (zlen_nonneg b'). lia.
    - exfalso. rewrite zlen_app in Hl'. destruct b; [contradiction|]. rewrite zlen_cons in Hl'. pose proof (zlen_nonneg b). lia.
    - assert (a' = a /\ b' = b) as [-> ->].
      { clear - Ha' Hd. unfold zlen in Ha'. assert (List.length a' = List.length a) by lia. clear Ha'. revert a' Hd H. induction a as [|y a IH]; intros [|y' a'] Hd H; cbn in H; try discriminate; auto.
        cbn in Hd. injection Hd as -> Hd. destruct (IH a' Hd ltac:(lia)) as [-> ->]. auto. }
      f_equal. f_equal. auto. }
  assert (out' = out) as -> by (eapply (D 76); [lia|exact E|exact Hf]). split; [apply R; unfold int_max in *; lia|].
  rewrite (C25_mime_decode_exact m 76 [13; 10] true x out); auto; try lia.
  - assert (Forall (fun b => b < 123) out).
    { assert (B : Forall (fun b => b < 123) (rfc4648 false true x)).
      { destruct (rfc_digits false true x F) as (ds & pd & -> & Fd & _ & C). apply Forall_app. split.
        - rewrite Forall_map. eapply Forall_impl; [|exact Fd]. intros d Hd. unfold alpha, sextet in *. destruct (Z.ltb_spec d 26), (Z.ltb_spec d 52), (Z.ltb_spec d 62), (Z.eqb_spec d 62); lia.
        - destruct C as [[-> _]|[[-> _]|[-> _]]]; repeat constructor; lia. }
      clear - Hf B. revert B. induction Hf as [l Hl|a b r Ha Hb Hf IH]; intros B; auto.
      apply Forall_app in B. destruct B. apply Forall_app. split; auto. repeat constructor; try lia. auto. }
    destruct (existsb _ out) eqn:Q; auto. apply existsb_exists in Q. destruct Q as (b & Ib & Q). rewrite Forall_forall in H. apply H in Ib. lia.
  - apply crlf_plain.
Qed.
Print Assumptions C25_default_mime_round_trip_partial.

Example C25_example :
  exists out, encode HW getMimeEncoder (repeat 97 91) = Ok out /\ zlen out = 126 /\ decode HW getMimeDecoder out = Ok (repeat 97 91) /\
  encode HW getMimeEncoder (T "abc") = Ok (T "YWJj") /\ decode HW getMimeDecoder (T "YWJj") = Throw OutOfRange.
Proof. eexists. split; [vm_compute; reflexivity|]. vm_compute. auto. Qed.
