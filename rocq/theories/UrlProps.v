(** Property theorems C45: URLEncoder and URLDecoder. *)

From Coq Require Import ZArith List Lia Bool String.
From Verif Require Import Base Bits TextLemmas CppText TextSpec StringSpec StringModel UrlSpec UrlModel.
Import ListNotations.
Open Scope Z_scope.
Local Notation length := List.length.

(** The reading under which the text is covered: the strict one gives
    isalnum no meaning on bytes from 128 on. *)
Definition covered (m : cpp) (s : str) : Prop := m = HW \/ Forall (fun c => c < 128) s.
Lemma ctype_ok m f c : m = HW \/ c < 128 -> ctype m f c = Ok (f c).
Proof. intros [->|H]; auto. unfold ctype. destruct m; auto. now replace ((128 <=? c) && (c <? 255)) with false by lia. Qed.
Lemma covered_cons m c s : covered m (c :: s) -> (m = HW \/ c < 128) /\ covered m s.
Proof. intros [->|H]; [split; left; auto|]. inversion H; subst. split; [right; auto|right; auto]. Qed.

Lemma all_bytes (f : Z -> bool) : forallb f (map Z.of_nat (seq 0 256)) = true -> forall c, byte_ok c -> f c = true.
Proof. intros F c (A & B). rewrite forallb_forall in F. apply F. apply in_map_iff. exists (Z.to_nat c). split; [lia|]. apply in_seq. lia. Qed.

Lemma enc_escape c : byte_ok c -> exists h l, 0 <= h < 16 /\ 0 <= l < 16 /\ c = 16 * h + l /\ charToHex (Z.shiftr (schar c) 4) = digit_char h /\ charToHex (Z.land (schar c) 15) = digit_char l.
Proof.
  intros B. exists (c / 16), (c mod 16). pose proof (Z.mod_pos_bound c 16 ltac:(lia)). pose proof (Z.div_mod c 16 ltac:(lia)). unfold byte_ok in B.
  split; [split; [apply Z.div_pos; lia|apply Z.div_lt_upper_bound; lia]|]. split; [lia|]. split; [lia|]. clear - B.
  assert (X : ((charToHex (Z.shiftr (schar c) 4) =? digit_char (c / 16)) && (charToHex (Z.land (schar c) 15) =? digit_char (c mod 16))) = true) by (apply (all_bytes (fun c => (charToHex (Z.shiftr (schar c) 4) =? digit_char (c / 16)) && (charToHex (Z.land (schar c) 15) =? digit_char (c mod 16)))); [vm_compute; reflexivity|auto]).
  apply andb_true_iff in X as (X & Y). now apply Z.eqb_eq in X, Y.
Qed.
Lemma unreserved_b c : (is_alnum_c c || (c =? 45) || (c =? 95) || (c =? 46) || (c =? 126)) = true <-> unreserved c.
Proof. unfold unreserved, is_alnum_c, is_digit_c, is_upper_c, is_lower_c. lia. Qed.

Lemma urlEncode_ok m s : Forall byte_ok s -> covered m s -> exists e, urlEncode m s = Ok e /\ url_encoded s e.
Proof.
  induction s as [|c s IH]; intros B C; [exists []; split; auto; constructor|]. inversion B as [|? ? BC B']; subst. apply covered_cons in C as (C & C').
  destruct (IH B' C') as (e & E & U). cbn [urlEncode]. rewrite (ctype_ok m is_alnum_c c C), E. cbn [bind]. eexists. split; [reflexivity|]. constructor; auto.
  destruct (is_alnum_c c || (c =? 45) || (c =? 95) || (c =? 46) || (c =? 126)) eqn:Q; [constructor; now apply unreserved_b|].
  assert (NU : ~ unreserved c) by (intros X; apply unreserved_b in X; congruence). destruct (Z.eqb_spec c 32) as [->|NS]; [apply form_space|].
  destruct (enc_escape c BC) as (h & l & H1 & H2 & H3 & -> & ->). now apply form_escape.
Qed.

(** encode gives the form-encoded text of every string without NUL. *)
Theorem C45_encode m s : Forall byte_ok s -> no_nul s -> covered m s -> exists e, encode m s (T "UTF-8") = Ok e /\ url_encoded s e.
Proof. intros B N C. unfold encode. change (is_utf8 (T "UTF-8")) with true. cbv iota. rewrite cstr_id by auto. now apply urlEncode_ok. Qed.
Print Assumptions C45_encode.

Theorem C45_encoded_unique s e e' : url_encoded s e -> url_encoded s e' -> e = e'.
Proof.
  intros U. revert e'. induction U as [|c s e t F U IH]; intros e' U'; inversion U' as [|? ? e2 t2 F2 U2]; subst; auto. rewrite (IH _ U2). f_equal. clear - F F2.
  inversion F as [? X|X|? h l H L E X]; subst; inversion F2 as [? X'|X'|? h' l' H' L' E' X']; subst; auto; try contradiction; try (exfalso; match goal with A : _ <> 32, B : 32 = _ |- _ => apply A; symmetry; exact B end); try (exfalso; unfold unreserved in *; lia). assert (h = h') by lia. assert (l = l') by lia. now subst.
Qed.
Print Assumptions C45_encoded_unique.

(** Only unreserved characters, '+', '%' and hexadecimal digits. *)
Theorem C45_alphabet s e : url_encoded s e -> Forall (fun c => unreserved c \/ c = 43 \/ c = 37) e.
Proof.
  induction 1 as [|c s e t F U IH]; [constructor|]. apply Forall_app. split; auto. inversion F as [? X|X|? h l H L E X]; subst; [constructor; auto|constructor; auto|]. cbn [T app]. constructor; [auto|].
  assert (D : forall d, 0 <= d < 16 -> unreserved (digit_char d)) by (intros d D; unfold digit_char, unreserved; destruct (d <? 10) eqn:Q; lia). constructor; [left; auto|]. constructor; [left; auto|constructor].
Qed.
Print Assumptions C45_alphabet.

Lemma digit16_byte a h : is_digit 16 a h -> 48 <= a <= 102 /\ 0 <= h < 16.
Proof.
  unfold is_digit, digit_val, is_digit_c, is_lower_c, is_upper_c. intros (E & L). destruct ((48 <=? a) && (a <=? 57)) eqn:Q1; [injection E as <-; lia|]. destruct ((97 <=? a) && (a <=? 122)) eqn:Q2; [injection E as <-; lia|]. destruct ((65 <=? a) && (a <=? 90)) eqn:Q3; [injection E as <-; lia|discriminate].
Qed.
Lemma from_hex_ok m a h : is_digit 16 a h -> charFromHex m a = Ok h.
Proof.
  intros D. pose proof (digit16_byte a h D) as (A & H). destruct D as (E & L). unfold charFromHex. rewrite ctype_ok by (right; lia). cbn [bind]. unfold digit_val in E. destruct (is_digit_c a) eqn:Q; [injection E as <-; auto|]. f_equal.
  unfold is_lower_c, is_upper_c, is_digit_c, c_tolower, schar in *. destruct ((97 <=? a) && (a <=? 122)) eqn:Q2.
  - injection E as <-. replace ((65 <=? a) && (a <=? 90)) with false by lia. replace (a <? 128) with true by lia. rewrite wrap_id; [lia|lia|unfold in_s, smin, smax; lia].
  - destruct ((65 <=? a) && (a <=? 90)) eqn:Q3; [injection E as <-|discriminate]. replace (a + 32 <? 128) with true by lia. rewrite wrap_id; [lia|lia|unfold in_s, smin, smax; lia].
Qed.
Lemma escape_value m h l : 0 <= h < 16 -> 0 <= l < 16 -> (let* x4 := sshl m 32 h 4 in Ok (uwrap 8 (Z.lor x4 l))) = Ok (16 * h + l).
Proof.
  intros H L. set (f := fun c => match sshl m 32 (c / 16) 4 with Ok x4 => uwrap 8 (Z.lor x4 (c mod 16)) =? c | _ => false end).
  assert (X : f (16 * h + l) = true) by (apply all_bytes; [unfold f; destruct m; vm_compute; reflexivity|unfold byte_ok; lia]). unfold f in X.
  replace ((16 * h + l) / 16) with h in X by (apply (Z.div_unique _ _ h l); lia). replace ((16 * h + l) mod 16) with l in X by (apply (Z.mod_unique _ _ h l); lia).
  destruct (sshl m 32 h 4); try discriminate. cbn [bind]. apply Z.eqb_eq in X. now rewrite X.
Qed.

(** decode gives the meaning of every well-formed text without NUL, in both readings. *)
Theorem C45_decode m t s : url_decoded t s -> no_nul t -> decode m t (T "UTF-8") = Ok s.
Proof.
  intros U N. unfold decode. change (is_utf8 (T "UTF-8")) with true. cbv iota. rewrite cstr_id by auto. clear N.
  induction U as [|c t s N1 N2 U IH|t s U IH|a b h l t s D1 D2 U IH]; auto.
  - cbn [urlDecode]. replace (c =? 37) with false by lia. rewrite IH. cbn [bind]. now replace (c =? 43) with false by lia.
  - cbn [urlDecode]. change (43 =? 37) with false. cbv iota. rewrite IH. reflexivity.
  - cbn [urlDecode]. change (37 =? 37) with true. cbv iota. pose proof (digit16_byte a h D1) as (A & H). pose proof (digit16_byte b l D2) as (B & L). replace (negb (a =? 0) && negb (b =? 0)) with true by lia.
    rewrite (from_hex_ok m a h D1). cbn [bind]. pose proof (escape_value m h l H L) as E. destruct (sshl m 32 h 4) as [x4| | |]; try discriminate. cbn [bind] in *. rewrite (from_hex_ok m b l D2). cbn [bind]. rewrite IH. cbn [bind]. now injection E as ->.
Qed.
Print Assumptions C45_decode.

Lemma encoded_decoded s e : url_encoded s e -> url_decoded e s /\ no_nul e.
Proof.
  induction 1 as [|c s e t F U (IH & N)]; [split; constructor|]. inversion F as [? X|X|? h l H L E X]; subst; cbn [T app].
  - split; [constructor; auto; unfold unreserved in X; lia|constructor; auto; unfold unreserved in X; lia].
  - split; [now apply ud_plus|constructor; auto; discriminate].
  - assert (D : forall d, 0 <= d < 16 -> is_digit 16 (digit_char d) d).
    { intros d D. unfold is_digit, digit_char, digit_val, is_digit_c, is_lower_c, is_upper_c. split; [|lia]. destruct (d <? 10) eqn:Q.
      - replace ((48 <=? 48 + d) && (48 + d <=? 57)) with true by lia. f_equal. lia.
      - replace ((48 <=? 87 + d) && (87 + d <=? 57)) with false by lia. replace ((97 <=? 87 + d) && (87 + d <=? 122)) with true by lia. f_equal. lia. }
    split; [apply ud_escape; auto|]. pose proof (digit16_byte _ _ (D h H)). pose proof (digit16_byte _ _ (D l L)). constructor; [discriminate|]. constructor; [lia|]. constructor; [lia|auto].
Qed.

(** The round trip, for every string without NUL. *)
Theorem C45_round_trip m s : Forall byte_ok s -> no_nul s -> covered m s ->
  exists e, encode m s (T "UTF-8") = Ok e /\ decode m e (T "UTF-8") = Ok s /\ Forall (fun c => unreserved c \/ c = 43 \/ c = 37) e.
Proof.
  intros B N C. destruct (C45_encode m s B N C) as (e & E & U). exists e. split; auto. destruct (encoded_decoded s e U) as (D & ND). split; [now apply C45_decode|]. eapply C45_alphabet; eauto.
Qed.
Print Assumptions C45_round_trip.

(** A string with a NUL comes back cut. *)
Theorem C45_nul_refuted m : exists s e t, Forall byte_ok s /\ encode m s (T "UTF-8") = Ok e /\ decode m e (T "UTF-8") = Ok t /\ t <> s.
Proof. exists (T "a" ++ [0] ++ T "b"), (T "a"), (T "a"). split; [repeat (apply Forall_cons; [unfold byte_ok; cbn; lia|]); apply Forall_nil|]. destruct m; (split; [reflexivity|split; [reflexivity|discriminate]]). Qed.
Print Assumptions C45_nul_refuted.

(** Encoding names are compared without regard to case; others are refused. *)
Theorem C45_charset m s enc : no_nul enc -> encode m s enc = (if str_eqb (map c_toupper enc) (T "UTF-8") then encode m s (T "UTF-8") else Throw UnsupportedEncodingException) /\
  decode m s enc = (if str_eqb (map c_toupper enc) (T "UTF-8") then decode m s (T "UTF-8") else Throw UnsupportedEncodingException).
Proof. intros N. unfold encode, decode, is_utf8, toUpperCase_ascii. rewrite cstr_id by auto. split; destruct (str_eqb (map c_toupper enc) _) eqn:E; change (T "UTF-8") with [85; 84; 70; 45; 56]; rewrite ?E; reflexivity. Qed.
Print Assumptions C45_charset.

(** A '%' without two characters after it is not reported: it is dropped. *)
Theorem C45_malformed m t s : url_decoded t s -> no_nul t -> decode m (t ++ T "%") (T "UTF-8") = Ok s /\ (forall c, 0 < c < 128 -> c <> 37 -> c <> 43 -> decode m (t ++ T "%" ++ [c]) (T "UTF-8") = Ok (s ++ [c])).
Proof.
  intros U N. unfold decode. change (is_utf8 (T "UTF-8")) with true. cbv iota. split; [|intros c C C1 C2]; rewrite cstr_id; try (apply Forall_app; split; [exact N|]; repeat constructor; try discriminate; try lia).
  all: clear N; change (T "%") with [37]; cbn [app]; induction U as [|x t s N1 N2 U IH|t s U IH|a b h l t s D1 D2 U IH].
  all: try (cbn [app urlDecode]; change (37 =? 37) with true; cbn [bind]; try replace (c =? 37) with false by lia; try replace (c =? 43) with false by lia; reflexivity).
  all: try (cbn [app urlDecode]; change (43 =? 37) with false; cbv iota; rewrite IH; reflexivity).
  all: try (cbn [app urlDecode]; replace (x =? 37) with false by lia; rewrite IH; cbn [bind]; replace (x =? 43) with false by lia; reflexivity).
  all: cbn [app urlDecode]; change (37 =? 37) with true; cbv iota; pose proof (digit16_byte a h D1) as (A & H); pose proof (digit16_byte b l D2) as (B & L); replace (negb (a =? 0) && negb (b =? 0)) with true by lia;
    rewrite (from_hex_ok m a h D1); cbn [bind]; pose proof (escape_value m h l H L) as E; destruct (sshl m 32 h 4) as [x4| | |]; try discriminate; cbn [bind] in *; rewrite (from_hex_ok m b l D2); cbn [bind]; rewrite IH; cbn [bind]; injection E as ->; reflexivity.
Qed.
Print Assumptions C45_malformed.

(** Strict reading: encoding a byte from 128 to 254 has no defined behaviour. *)
Theorem C45_iso s t c : Forall (fun c => 0 < c < 128) s -> 128 <= c < 255 -> encode ISO (s ++ c :: t) (T "UTF-8") = UB Precondition.
Proof.
  intros F C. unfold encode. change (is_utf8 (T "UTF-8")) with true. cbv iota. induction F as [|x s X F IH]; cbn [app cstr].
  - replace (c =? 0) with false by lia. cbn [urlEncode ctype]. now replace ((128 <=? c) && (c <? 255)) with true by lia.
  - replace (x =? 0) with false by lia. cbn [urlEncode ctype]. replace ((128 <=? x) && (x <? 255)) with false by lia. cbn [bind]. rewrite IH. reflexivity.
Qed.
Print Assumptions C45_iso.

Example C45_example : encode HW (T "a b&~" ++ [195; 169]) (T "utf-8") = Ok (T "a+b%26~%c3%a9") /\ decode HW (T "a+b%26~%C3%a9") (T "Utf-8") = Ok (T "a b&~" ++ [195; 169]).
Proof. split; reflexivity. Qed.
