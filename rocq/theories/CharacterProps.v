(** Properties of Java.Lang.Character (C61). *)

From Coq Require Import ZArith List Lia Bool.
From Verif Require Import Base Bits CppText TextLemmas CharacterModel CharacterSpec.
Import ListNotations.
Open Scope Z_scope.

(** ** Digits *)

(** Radix 10 is right for every code point. *)
Theorem C61_digit_decimal : forall c, digit_result c 10 (digit c 10).
Proof.
  intros c. unfold digit_result, digit_value, digit. cbn [Z.eqb Pos.eqb].
  destruct (Z.leb_spec 48 c), (Z.leb_spec c 57); cbn [andb]; [left; lia| | |];
    (right; split; [reflexivity|intros v; lia]).
Qed.
Print Assumptions C61_digit_decimal.
(** Radix 16 is right for every code point that is not a capital letter. *)
Theorem C61_digit_hexadecimal_partial : forall c, ~ 65 <= c <= 70 -> digit_result c 16 (digit c 16).
Proof.
  intros c N. unfold digit_result, digit_value, digit. cbn [Z.eqb Pos.eqb].
  destruct (Z.leb_spec 48 c), (Z.leb_spec c 57), (Z.leb_spec 97 c), (Z.leb_spec c 102); cbn [andb];
    try (left; lia); (right; split; [reflexivity|intros v; lia]).
Qed.
Print Assumptions C61_digit_hexadecimal_partial.
(** The capital digits 'A' to 'F' are rejected. *)
Theorem C61_digit_capital_refuted : forall c, 65 <= c <= 70 -> digit_value c (c - 55) /\ digit c 16 = -1.
Proof.
  intros c H. unfold digit_value, digit. cbn [Z.eqb Pos.eqb].
  destruct (Z.leb_spec 48 c), (Z.leb_spec c 57), (Z.leb_spec 97 c), (Z.leb_spec c 102); cbn [andb]; lia.
Qed.
Print Assumptions C61_digit_capital_refuted.
(** In every other radix every digit is rejected. *)
Theorem C61_digit_radix_refuted : forall c r, r <> 10 -> r <> 16 -> digit c r = -1.
Proof.
  intros c r N M. unfold digit. destruct (Z.eqb_spec r 10), (Z.eqb_spec r 16); congruence.
Qed.
Print Assumptions C61_digit_radix_refuted.
Example C61_digit_ex : digit 55 10 = 7 /\ digit 102 16 = 15 /\ digit 70 16 = -1 /\ digit 49 2 = -1 /\ digit_result 49 2 1.
Proof. repeat split; try reflexivity. left. split; [left|]; lia. Qed.

(** ** Surrogates *)

(** No UTF-16 code unit is recognised: the predicates reject every surrogate. *)
Lemma no_unit u : u <= 65535 -> isHighSurrogate u = false /\ isLowSurrogate u = false /\ isSurrogate u = false.
Proof.
  intros H. unfold isHighSurrogate, isLowSurrogate, isSurrogate, MIN_SURROGATE, MIN_HIGH_SURROGATE, MIN_LOW_SURROGATE, multichar.
  repeat match goal with |- context [?a <=? u] => destruct (Z.leb_spec a u); [lia|] end. auto.
Qed.
Theorem C61_surrogates_refuted : forall u, code_unit u ->
  isHighSurrogate u = false /\ isLowSurrogate u = false /\ isSurrogate u = false.
Proof. intros u [_ H]. now apply no_unit. Qed.
Print Assumptions C61_surrogates_refuted.
(** Hence they are right exactly outside the surrogate range, and the kinds
    are consistent with each other for every argument. *)
Theorem C61_non_surrogates_partial : forall u, code_unit u -> ~ surrogate u ->
  (isHighSurrogate u = true <-> high_surrogate u) /\ (isLowSurrogate u = true <-> low_surrogate u) /\
  (isSurrogate u = true <-> surrogate u).
Proof.
  intros u [_ H] N. destruct (no_unit u H) as (-> & -> & ->). unfold surrogate, high_surrogate, low_surrogate in *.
  repeat split; (discriminate || lia).
Qed.
Print Assumptions C61_non_surrogates_partial.
Theorem C61_high_not_low : forall u, isHighSurrogate u = true ->
  isLowSurrogate u = false /\ isSurrogate u = true.
Proof.
  intros u. unfold isHighSurrogate, isLowSurrogate, isSurrogate, MIN_SURROGATE, MAX_SURROGATE,
    MIN_HIGH_SURROGATE, MAX_HIGH_SURROGATE, MIN_LOW_SURROGATE, MAX_LOW_SURROGATE, multichar. intros H.
  apply andb_prop in H as [H1 H2]. apply Z.leb_le in H1. apply Z.ltb_lt in H2. split.
  - match goal with |- context [?a <=? u] => destruct (Z.leb_spec a u); [lia|reflexivity] end.
  - apply andb_true_intro. split; [apply Z.leb_le|apply Z.ltb_lt]; lia.
Qed.
Print Assumptions C61_high_not_low.
Example C61_surrogate_ex : surrogate (utf16_high 128512) /\ code_unit (utf16_high 128512) /\ isSurrogate (utf16_high 128512) = false
  /\ isHighSurrogate (multichar 13 56 48 48) = true.
Proof. unfold surrogate, code_unit, utf16_high. cbn. repeat split; (reflexivity || lia). Qed.

(** ** toCodePoint *)

(** For no supplementary code point does toCodePoint give it back. *)
Lemma sadd_HW a b : sadd HW 32 a b = Ok (wrap 32 (a + b)).
Proof. now apply sres_HW. Qed.
Lemma ssub_HW a b : ssub HW 32 a b = Ok (wrap 32 (a - b)).
Proof. now apply sres_HW. Qed.
Definition offset61 : Z := 65536 - wrap 32 (MIN_HIGH_SURROGATE * 1024) - MIN_LOW_SURROGATE.
Lemma toCodePoint_HW h l : toCodePoint HW h l = Ok (wrap 32 (h * 1024 + l + offset61)).
Proof.
  unfold toCodePoint.
  assert (E : forall x, sshl HW 32 x 10 = Ok (wrap 32 (x * 1024))).
  { intros x. unfold sshl. cbn [Z.ltb Z.leb Z.compare orb negb]. 
    change (10 mod 32) with 10. rewrite ?Z.shiftl_mul_pow2 by lia. reflexivity. }
  rewrite !E. cbn [bind]. rewrite !sadd_HW, !ssub_HW. cbn [bind]. rewrite !ssub_HW. cbn [bind].
  rewrite sadd_HW. f_equal.
  apply wrap_eq_mod; [lia|]. unfold offset61, MIN_SUPPLEMENTARY_CODE_POINT.
  assert (W : forall x, wrap 32 x mod 2 ^ 32 = x mod 2 ^ 32) by (intros; apply wrap_mod; lia).
  set (M := wrap 32 (MIN_HIGH_SURROGATE * 1024)). set (N := MIN_LOW_SURROGATE).
  rewrite Z.add_mod, !W, <- Z.add_mod by lia.
  rewrite (Z.add_mod (wrap 32 (h * 1024) + l)) by lia.
  rewrite (Z.add_mod (wrap 32 (h * 1024)) l), !W, <- (Z.add_mod (h * 1024) l) by lia.
  rewrite (Zminus_mod (wrap 32 (65536 - M)) N), W, <- Zminus_mod, <- Z.add_mod by lia.
  f_equal; lia.
Qed.
Theorem C61_toCodePoint_refuted : forall cp, supplementary cp ->
  exists r, toCodePoint HW (utf16_high cp) (utf16_low cp) = Ok r /\ r <> cp.
Proof.
  intros cp H. eexists. split; [apply toCodePoint_HW|].
  intros E.
  assert (F : utf16_high cp * 1024 + utf16_low cp = cp + (55296 * 1024 + 56320 - 65536)).
  { unfold utf16_high, utf16_low. pose proof (Z.div_mod (cp - 65536) 1024). lia. }
  rewrite F in E. apply (f_equal (fun x => x mod 2 ^ 32)) in E. rewrite wrap_mod in E by lia.
  assert (K : offset61 = -222507008 \/ offset61 <> 0) by (right; vm_compute; discriminate).
  clear K F. revert E. let v := eval vm_compute in offset61 in change offset61 with v.
  unfold supplementary in H. intros E.
  assert (D : (cp + (55296 * 1024 + 56320 - 65536) + ltac:(let v := eval vm_compute in offset61 in exact v) - cp) mod 2 ^ 32 = 0).
  { rewrite Zminus_mod, E, Z.sub_diag. reflexivity. }
  match type of D with (cp + ?a + ?b - cp) mod _ = _ => replace (cp + a + b - cp) with (a + b) in D by lia end.
  vm_compute in D. discriminate.
Qed.
Print Assumptions C61_toCodePoint_refuted.
(** Under ISO C++11 the call is undefined (a signed left shift overflows),
    whatever the arguments. *)
Theorem C61_toCodePoint_iso : forall h l r, toCodePoint ISO h l <> Ok r.
Proof.
  intros h l r. unfold toCodePoint.
  destruct (sshl ISO 32 h 10) as [x| | |]; cbn [bind]; try discriminate.
  destruct (sadd ISO 32 x l) as [y| | |]; cbn [bind]; try discriminate.
Qed.
Print Assumptions C61_toCodePoint_iso.
(** What does hold: the function inverts the split relative to the library's
    own constants (the only inputs its unit test tries). *)
Theorem C61_toCodePoint_partial : forall cp, supplementary cp ->
  toCodePoint HW (MIN_HIGH_SURROGATE + (cp - 65536) / 1024) (MIN_LOW_SURROGATE + (cp - 65536) mod 1024) = Ok cp.
Proof.
  intros cp H. rewrite toCodePoint_HW. f_equal. unfold supplementary in H.
  transitivity (wrap 32 cp).
  2: apply wrap_id; unfold in_s; cbn; lia.
  apply wrap_eq_mod; [lia|]. unfold offset61.
  assert (W : forall x, wrap 32 x mod 2 ^ 32 = x mod 2 ^ 32) by (intros; apply wrap_mod; lia).
  set (M := MIN_HIGH_SURROGATE). set (N := MIN_LOW_SURROGATE).
  pose proof (Z.div_mod (cp - 65536) 1024).
  replace ((M + (cp - 65536) / 1024) * 1024 + (N + (cp - 65536) mod 1024) + (65536 - wrap 32 (M * 1024) - N))
    with (cp + M * 1024 - wrap 32 (M * 1024)) by lia.
  rewrite Zminus_mod, W, <- Zminus_mod. f_equal. lia.
Qed.
Print Assumptions C61_toCodePoint_partial.
Example C61_toCodePoint_ex : supplementary 128512 /\ utf16_high 128512 = 55357 /\ utf16_low 128512 = 56832
  /\ toCodePoint HW (utf16_high 128512) (utf16_low 128512) <> Ok 128512.
Proof. unfold supplementary. repeat split; try lia. vm_compute. discriminate. Qed.

(** ** Code points of char arrays *)

(** [charCount] is the number of UTF-16 units of every code point. *)
Theorem C61_charCount : forall cp, charCount cp = zlen (utf16 cp).
Proof.
  intros cp. unfold charCount, utf16, MIN_SUPPLEMENTARY_CODE_POINT.
  destruct (Z.leb_spec 65536 cp), (Z.ltb_spec cp 65536); (lia || reflexivity).
Qed.
Print Assumptions C61_charCount.

Lemma schar_le b : byte_ok b -> schar b <= 65535.
Proof. unfold byte_ok, schar. intros. destruct (Z.ltb_spec b 128); lia. Qed.
Lemma bytes_at a i b : Forall byte_ok a -> znth a i = Some b -> schar b <= 65535.
Proof.
  intros F E. apply schar_le. rewrite Forall_forall in F. apply F.
  unfold znth in E. destruct (i <? 0); [discriminate|]. now apply nth_error_In in E.
Qed.

(** In a char array every char is its own code point: codePointAt and
    codePointBefore return the char (a negative number for a byte above 127),
    or raise when the index is outside; the variants with a limit return -1
    outside the limit. *)
Theorem C61_codePointAt_chars : forall m a i, Forall byte_ok a ->
  codePointAt m a i = match znth a i with Some b => Ok (schar b) | None => Throw OutOfRange end.
Proof.
  intros m a i F. unfold codePointAt, codePointAtImpl, at_.
  destruct (znth a i) as [b|] eqn:E; cbn [bind]; [|reflexivity].
  rewrite (proj1 (no_unit _ (bytes_at _ _ _ F E))). reflexivity.
Qed.
Print Assumptions C61_codePointAt_chars.
Theorem C61_codePointAt_limit_chars : forall m a i limit, Forall byte_ok a -> 0 <= i ->
  codePointAt_limit m a i limit =
    if (i <? limit) && (limit <=? zlen a) then match znth a i with Some b => Ok (schar b) | None => Throw OutOfRange end
    else Ok (-1).
Proof.
  intros m a i l F P. unfold codePointAt_limit, codePointAtImpl, at_.
  destruct (Z.leb_spec l i), (Z.ltb_spec i l), (Z.ltb_spec l 0), (Z.ltb_spec (zlen a) l), (Z.leb_spec l (zlen a));
    try lia; cbn [orb andb]; try reflexivity.
  destruct (znth a i) as [b|] eqn:E; cbn [bind]; [|reflexivity].
  rewrite (proj1 (no_unit _ (bytes_at _ _ _ F E))). reflexivity.
Qed.
Print Assumptions C61_codePointAt_limit_chars.
Theorem C61_codePointBefore_chars : forall m a i, Forall byte_ok a ->
  codePointBefore m a i = match znth a (i - 1) with Some b => Ok (schar b) | None => Throw OutOfRange end.
Proof.
  intros m a i F. unfold codePointBefore, codePointBeforeImpl, at_.
  destruct (znth a (i - 1)) as [b|] eqn:E; cbn [bind]; [|reflexivity].
  rewrite (proj1 (proj2 (no_unit _ (bytes_at _ _ _ F E)))). reflexivity.
Qed.
Print Assumptions C61_codePointBefore_chars.
(** codePointCount is the number of chars in the range, -1 for a bad range. *)
Theorem C61_codePointCount_chars : forall a offset count, Forall byte_ok a ->
  codePointCount a offset count = Ok (if (0 <=? offset) && (0 <=? count) && (offset + count <=? zlen a) then count else -1).
Proof.
  intros a o c F. unfold codePointCount.
  assert (G : forall k i n, 0 <= i -> i + Z.of_nat k <= zlen a ->
    codePointCountLoop k a i (i + Z.of_nat k) n = Ok n).
  { induction k as [|k IH]; intros i n P Q; cbn [codePointCountLoop].
    - destruct (Z.leb_spec (i + Z.of_nat 0) i); [reflexivity|lia].
    - destruct (Z.leb_spec (i + Z.of_nat (S k)) i); [lia|].
      destruct (znth_ex a i ltac:(lia)) as [b E]. unfold at_ at 1. rewrite E. cbn [bind].
      rewrite (proj1 (no_unit _ (bytes_at _ _ _ F E))). cbn [andb].
      replace (i + Z.of_nat (S k)) with (i + 1 + Z.of_nat k) by lia. apply IH; lia. }
  destruct (Z.ltb_spec (zlen a - o) c), (Z.ltb_spec o 0), (Z.ltb_spec c 0), (Z.leb_spec 0 o), (Z.leb_spec 0 c),
    (Z.leb_spec (o + c) (zlen a)); try lia; cbn [orb andb]; try reflexivity.
  replace (o + c) with (o + Z.of_nat (Z.to_nat c)) by lia. apply G; lia.
Qed.
Print Assumptions C61_codePointCount_chars.
(** compare orders chars as signed numbers. *)
Theorem C61_compare : forall x y, byte_ok x -> byte_ok y ->
  (char_compare x y < 0 <-> schar x < schar y) /\ (char_compare x y = 0 <-> x = y) /\
  (char_compare x y = - char_compare y x).
Proof.
  intros x y X Y. unfold char_compare, byte_ok, schar in *.
  destruct (Z.ltb_spec x 128), (Z.ltb_spec y 128); lia.
Qed.
Print Assumptions C61_compare.
Example C61_chars_ex : codePointAt ISO [97; 240; 159] 1 = Ok (-16) /\ codePointCount [97; 240; 159] 1 2 = Ok 2
  /\ codePointAt_limit ISO [97] 1 1 = Ok (-1) /\ Forall byte_ok [97; 240; 159].
Proof. unfold byte_ok. repeat split; repeat (constructor; try lia). Qed.
