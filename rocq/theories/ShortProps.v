(** C86: Short. *)

From Coq Require Import ZArith List Lia Bool String.
From Verif Require Import Base Bits CppText TextSpec TextLemmas StringModel IntegerProofs2 ShortModel ShortSpec.
From Verif Require LongProofs2.
Import ListNotations.
Open Scope string_scope.
Open Scope list_scope.
Open Scope Z_scope.

Lemma to_short_ok x : narrowed x (to_short x).
Proof.
  unfold narrowed, to_short, is_short. pose proof (wrap_range 16 x ltac:(lia)) as R. unfold in_s, smin, smax in R. change (2 ^ (16 - 1)) with 32768 in R. split; [lia|].
  pose proof (wrap_mod 16 x ltac:(lia)) as M. change (2 ^ 16) with 65536 in M. exists ((x - wrap 16 x) / 65536).
  assert (D : (x - wrap 16 x) mod 65536 = 0) by (rewrite Zminus_mod, M, Z.sub_diag; reflexivity). pose proof (Z.div_mod (x - wrap 16 x) 65536 ltac:(lia)). lia.
Qed.
Lemma narrowed_unique x r s : narrowed x r -> narrowed x s -> r = s.
Proof. unfold narrowed, is_short. intros (A & k & ->) (B & j & E). lia. Qed.
Lemma to_short_id x : is_short x -> to_short x = x.
Proof. intros H. apply (narrowed_unique x); [apply to_short_ok|]. split; [exact H|]. exists 0. lia. Qed.
Lemma new_denotes x : is_short x -> denotes (new x) x.
Proof. intros H. split; [exact H|]. split; [reflexivity|]. apply itoa_canonical. Qed.
Lemma short32 x y op : is_short x -> is_short y -> - 2 ^ 31 <= op <= 2 ^ 31 - 1 -> in_s 32 op.
Proof. intros _ _ R. unfold in_s, smin, smax. change (2 ^ (32 - 1)) with (2 ^ 31). lia. Qed.

(** All ways to make an object give one whose value and text agree. *)
Theorem C86_objects : denotes new_default 0 /\ (forall x, is_short x -> denotes (new x) x) /\ forall a b x, denotes b x -> denotes (copy b) x /\ denotes (assign a b) x.
Proof.
  split; [apply (new_denotes 0); unfold is_short; lia|]. split; [exact new_denotes|]. intros a b x (S0 & V & T). unfold value in V. unfold copy, assign. rewrite V. split; apply (new_denotes x S0).
Qed.
Print Assumptions C86_objects.

(** ** The decimal text is determined by the value *)
Lemma digit10 c d : is_digit 10 c d -> c = 48 + d /\ 0 <= d < 10.
Proof.
  intros [Hc Hd]. unfold digit_val, is_digit_c, is_lower_c, is_upper_c in Hc.
  destruct ((48 <=? c) && (c <=? 57)) eqn:E1; [inversion Hc; lia|].
  destruct ((97 <=? c) && (c <=? 122)) eqn:E2; [inversion Hc; lia|].
  destruct ((65 <=? c) && (c <=? 90)) eqn:E3; [inversion Hc; lia|discriminate].
Qed.
Lemma digits10 s ds : Forall2 (is_digit 10) s ds -> s = map (fun d => 48 + d) ds /\ Forall (fun d => 0 <= d < 10) ds.
Proof. induction 1 as [|c d s ds H F (-> & D)]; [split; [reflexivity|constructor]|]. apply digit10 in H as (-> & R). split; [reflexivity|constructor; assumption]. Qed.
Lemma numval_inj b ds : 0 < b -> forall es, Forall (fun d => 0 <= d < b) ds -> Forall (fun d => 0 <= d < b) es -> List.length ds = List.length es -> numval b ds = numval b es -> ds = es.
Proof.
  intros B. induction ds as [|d ds IH]; intros [|e es] D E L V; try discriminate; [reflexivity|]. inversion D; inversion E; subst. cbn [List.length] in L. injection L as L.
  rewrite !numval_cons in V. assert (Z0 : zlen ds = zlen es) by (unfold zlen; rewrite L; reflexivity). rewrite Z0 in V.
  pose proof (numval_bound b ds ltac:(lia) ltac:(assumption)) as A1. pose proof (numval_bound b es ltac:(lia) ltac:(assumption)) as A2. rewrite Z0 in A1.
  assert (d = e) by nia. subst e. f_equal. apply IH; auto. nia.
Qed.
Lemma canonical_len ds : Forall (fun d => 0 <= d < 10) ds -> ds <> [] -> hd 0 ds <> 0 -> 10 ^ (zlen ds - 1) <= numval 10 ds < 10 ^ zlen ds.
Proof.
  destruct ds as [|d ds]; [congruence|]. intros D _ N. cbn [hd] in N. split; [|apply numval_bound; [lia|exact D]]. inversion D; subst.
  rewrite numval_cons, zlen_cons. pose proof (numval_bound 10 ds ltac:(lia) ltac:(assumption)) as A1. replace (1 + zlen ds - 1) with (zlen ds) by lia. replace (zlen ds + 1 - 1) with (zlen ds) by lia. nia.
Qed.
Lemma canonical10_unique s t v : canonical_unsigned 10 s v -> canonical_unsigned 10 t v -> s = t.
Proof.
  assert (Z0 : forall s v, canonical_unsigned 10 s v -> (s = [48] /\ v = 0) \/ exists ds, s = map (fun d => 48 + d) ds /\ Forall (fun d => 0 <= d < 10) ds /\ v = numval 10 ds /\ 1 <= zlen ds /\ 10 ^ (zlen ds - 1) <= v < 10 ^ zlen ds).
  { clear. intros s v ((N & ds & F & ->) & _ & C). pose proof (digits10 _ _ F) as (-> & D). destruct ds as [|d ds]; [cbn in N; congruence|]. cbn [map hd] in C.
    destruct (Z.eq_dec d 0) as [->|N0].
    - left. specialize (C eq_refl). cbn [map] in C. injection C as C. destruct ds; [split; reflexivity|discriminate].
    - right. exists (d :: ds). split; [reflexivity|]. split; [exact D|]. split; [reflexivity|]. split; [rewrite zlen_cons; pose proof (zlen_nonneg ds); lia|]. apply canonical_len; [exact D|discriminate|exact N0]. }
  intros A B. destruct (Z0 _ _ A) as [(-> & ->)|(ds & -> & D & -> & L & R)], (Z0 _ _ B) as [(-> & E)|(es & -> & D' & E & L' & R')]; clear Z0.
  - reflexivity.
  - assert (0 < 10 ^ (zlen es - 1)) by (apply Z.pow_pos_nonneg; lia). lia.
  - assert (0 < 10 ^ (zlen ds - 1)) by (apply Z.pow_pos_nonneg; lia). lia.
  - f_equal. apply (numval_inj 10); auto; [lia|]. rewrite E in R at 1. rewrite E in R. assert (zlen ds = zlen es); [|unfold zlen in *; lia].
    destruct (Z.lt_trichotomy (zlen ds) (zlen es)) as [G|[G|G]]; [|exact G|].
    + assert (10 ^ zlen ds <= 10 ^ (zlen es - 1)) by (apply Z.pow_le_mono_r; lia). lia.
    + assert (10 ^ zlen es <= 10 ^ (zlen ds - 1)) by (apply Z.pow_le_mono_r; lia). lia.
Qed.
Lemma canonical_signed_text s t v : canonical_signed 10 s v -> canonical_signed 10 t v -> s = t.
Proof.
  assert (P : forall s v, canonical_unsigned 10 s v -> 0 <= v) by (intros s0 v0 (N & _); eapply numeral_range; [|exact N]; lia).
  intros [A|(s' & w & -> & W & A & ->)] [B|(t' & w' & -> & W' & B & E)].
  - eapply canonical10_unique; eauto.
  - apply P in A. lia.
  - apply P in B. lia.
  - f_equal. assert (w = w') by lia. subst. eapply canonical10_unique; eauto.
Qed.

(** Two objects have the same text exactly if they denote the same number, so
    objects that compare equal hash equally. *)
Theorem C86_toString_injective : forall a b x y, denotes a x -> denotes b y -> (toString a = toString b <-> x = y).
Proof.
  intros a b x y (_ & _ & A) (_ & _ & B). split; [|intros ->; eapply canonical_signed_text; eauto]. intros E. rewrite E in A.
  eapply LongProofs2.canonical_signed_fun; [|exact A|exact B]; lia.
Qed.
Print Assumptions C86_toString_injective.
Theorem C86_equal_hash : forall H (h : str -> H) a b x y, denotes a x -> denotes b y -> ShortModel.eq a b = true -> hash h a = hash h b.
Proof.
  intros H h a b x y A B E. unfold ShortModel.eq in E. apply Z.eqb_eq in E. unfold hash. replace (toString a) with (toString b); [reflexivity|]. apply (C86_toString_injective b a y x B A).
  destruct A as (_ & A & _), B as (_ & B & _). unfold value in *. congruence.
Qed.
Print Assumptions C86_equal_hash.
(** and what is hashed is the decimal text of the number, so a hash function
    that tells texts apart tells numbers apart. *)
Theorem C86_hash_text : forall H (h : str -> H) a x, denotes a x -> exists s, canonical_signed 10 s x /\ hash h a = h s.
Proof.
  intros H h a x (_ & _ & C). exists (toString a). split; [exact C|]. unfold hash. f_equal. apply cstr_id.
  assert (U : forall s v, canonical_unsigned 10 s v -> Forall (fun c => c <> 0) s).
  { intros s v ((_ & ds & F & _) & _). clear -F. induction F as [|c d s ds D F IH]; constructor; auto. apply digit10 in D. lia. }
  destruct C as [C|(t & w & E & _ & C & _)]; [eapply U; exact C|]. rewrite E. constructor; [lia|eapply U; exact C].
Qed.
Print Assumptions C86_hash_text.

(** ** Comparisons *)
Theorem C86_comparisons : forall a b x y, denotes a x -> denotes b y ->
  (ShortModel.eq a b = true <-> x = y) /\ (ne a b = true <-> x <> y) /\ (ShortModel.lt a b = true <-> x < y) /\ (gt a b = true <-> x > y) /\ (le a b = true <-> x <= y) /\ (ge a b = true <-> x >= y).
Proof. intros a b x y (_ & <- & _) (_ & <- & _). unfold ShortModel.eq, ne, ShortModel.eq, ShortModel.lt, gt, le, ge, value. lia. Qed.
Print Assumptions C86_comparisons.

(** ** Arithmetic: Java's result cast to short, with no overflow of int on the
    way, so both dialects agree *)
Lemma quot_short x y : is_short x -> y <> 0 -> in_sb 32 (Z.quot x y) = true.
Proof.
  intros A N. apply in_s_b. unfold in_s, smin, smax. change (2 ^ (32 - 1)) with 2147483648. unfold is_short in A.
  assert (Z.abs (Z.quot x y) <= Z.abs x); [|lia]. rewrite <- Z.quot_abs by exact N. rewrite Z.quot_div_nonneg by lia. apply Z.div_le_upper_bound; [lia|]. nia.
Qed.
Section Ar.
Variables (m : cpp) (a b : Short) (x y : Z).
Hypotheses (A : denotes a x) (B : denotes b y).
Lemma ar_res r : exists c z, Ok (new (to_short r)) = Ok c /\ denotes c z /\ narrowed r z.
Proof. exists (new (to_short r)), (to_short r). split; [reflexivity|]. split; [apply new_denotes; apply to_short_ok|apply to_short_ok]. Qed.
Lemma s_ok r : in_s 32 r -> sres m 32 r = Ok r.
Proof. intros R. apply sres_ok. exact R. Qed.
Lemma add_ok : exists c z, add m a b = Ok c /\ denotes c z /\ narrowed (x + y) z.
Proof. destruct A as (A1 & A2 & _), B as (B1 & B2 & _). unfold value in *. unfold add, sadd. rewrite A2, B2, s_ok; [apply ar_res|]. unfold is_short, in_s, smin, smax in *. change (2 ^ (32 - 1)) with 2147483648. lia. Qed.
Lemma sub_ok : exists c z, sub m a b = Ok c /\ denotes c z /\ narrowed (x - y) z.
Proof. destruct A as (A1 & A2 & _), B as (B1 & B2 & _). unfold value in *. unfold sub, ssub. rewrite A2, B2, s_ok; [apply ar_res|]. unfold is_short, in_s, smin, smax in *. change (2 ^ (32 - 1)) with 2147483648. lia. Qed.
Lemma mul_ok : exists c z, mul m a b = Ok c /\ denotes c z /\ narrowed (x * y) z.
Proof. destruct A as (A1 & A2 & _), B as (B1 & B2 & _). unfold value in *. unfold mul, smul. rewrite A2, B2, s_ok; [apply ar_res|]. unfold is_short, in_s, smin, smax in *. change (2 ^ (32 - 1)) with 2147483648. nia. Qed.
Lemma div_ok : y <> 0 -> exists c z, div a b = Ok c /\ denotes c z /\ narrowed (Z.quot x y) z.
Proof.
  intros N. destruct A as (A1 & A2 & _), B as (B1 & B2 & _). unfold value in *. unfold div, sdiv. rewrite A2, B2. destruct (Z.eqb_spec y 0); [lia|].
  rewrite quot_short by assumption. unfold is_short in *. apply ar_res.
Qed.
Lemma mod_ok : y <> 0 -> exists c z, mod_ a b = Ok c /\ denotes c z /\ z = Z.rem x y.
Proof.
  intros N. destruct A as (A1 & A2 & _), B as (B1 & B2 & _). unfold value in *. unfold mod_, srem. rewrite A2, B2. destruct (Z.eqb_spec y 0); [lia|].
  rewrite quot_short by assumption. unfold is_short in *. 
  assert (S0 : is_short (Z.rem x y)). { unfold is_short. pose proof (Z.rem_bound_abs x y N). lia. }
  exists (new (Z.rem x y)), (Z.rem x y). cbn [bind]. rewrite to_short_id by exact S0. split; [reflexivity|]. split; [apply new_denotes; exact S0|reflexivity].
Qed.
End Ar.
Theorem C86_arithmetic : forall m a b x y, denotes a x -> denotes b y ->
  (exists c z, add m a b = Ok c /\ denotes c z /\ narrowed (x + y) z) /\ (exists c z, sub m a b = Ok c /\ denotes c z /\ narrowed (x - y) z) /\
  (exists c z, mul m a b = Ok c /\ denotes c z /\ narrowed (x * y) z) /\
  (y <> 0 -> exists c z, div a b = Ok c /\ denotes c z /\ narrowed (Z.quot x y) z) /\ (y <> 0 -> exists c z, mod_ a b = Ok c /\ denotes c z /\ z = Z.rem x y).
Proof. intros m a b x y A B. split; [apply add_ok; auto|]. split; [apply sub_ok; auto|]. split; [apply mul_ok; auto|]. split; [intros N; apply div_ok; auto|intros N; apply mod_ok; auto]. Qed.
Print Assumptions C86_arithmetic.
(** Java throws ArithmeticException on division by zero; here it is undefined. *)
Theorem C86_division_by_zero_refuted : forall a b x, denotes a x -> denotes b 0 -> div a b = UB DivideByZero /\ mod_ a b = UB DivideByZero.
Proof. intros a b x (_ & A & _) (_ & B & _). unfold div, mod_, sdiv, srem, value in *. rewrite A, B. split; reflexivity. Qed.
Print Assumptions C86_division_by_zero_refuted.
Example C86_wraps : exists c, mul ISO (new 300) (new 300) = Ok c /\ value c = 24464 /\ toString c = T "24464". Proof. eexists. split; [vm_compute; reflexivity|]. split; reflexivity. Qed.
Example C86_min_div : exists c, div (new (-32768)) (new (-1)) = Ok c /\ toString c = T "-32768". Proof. eexists. split; [vm_compute; reflexivity|]. reflexivity. Qed.

(** ** charValue: the first character of the decimal text, not the character
    with that code (Java has no Short.charValue; the library's other classes
    convert the number) *)
Theorem C86_charValue : forall a x, denotes a x -> charValue a = hd 0 (toString a) /\ (x < 0 -> charValue a = 45) /\ (0 <= x -> 48 <= charValue a <= 57).
Proof.
  intros a x (S0 & V & T0). unfold value in V. unfold charValue. rewrite V. assert (E : toString a = itoa x) by (eapply canonical_signed_text; [exact T0|apply itoa_canonical]). rewrite E. split; [reflexivity|]. rewrite E in T0. clear E.
  destruct T0 as [((N & ds & F & ->) & _)|(t & w & -> & W & _ & ->)]; [|split; intros; [reflexivity|lia]].
  pose proof (digits10 _ _ F) as (E & D). rewrite E. destruct ds as [|d ds]; [cbn in E; congruence|]. split; [intros G; pose proof (numval_bound 10 (d :: ds) ltac:(lia) D); lia|]. intros _. cbn [map hd]. inversion D; subst. lia.
Qed.
Print Assumptions C86_charValue.

(** ** parseShort *)
Lemma take_digits_rest b s ds r : Forall2 (is_digit b) s ds -> no_digit b r -> take_digits b (s ++ r) = ds.
Proof.
  intros F N. induction F as [|c d s ds [Hc Hd] F IH]; cbn [List.app take_digits].
  - destruct r as [|c r]; [reflexivity|]. cbn [no_digit take_digits] in *. destruct (digit_val c); [|reflexivity]. destruct (Z.ltb_spec z b); [lia|reflexivity].
  - rewrite Hc. destruct (Z.ltb_spec d b); [|lia]. rewrite IH. reflexivity.
Qed.
Lemma strip_ok ws sign t : Forall (fun c => is_space_c c = true) ws -> a_sign sign -> (match t with c :: _ => 48 <= c <= 57 | [] => False end) ->
  strip_sign (skip_ws (ws ++ sign ++ t)) = (match sign with 45 :: _ => true | _ => false end, t).
Proof.
  intros W G T0. destruct t as [|c t]; [destruct T0|]. induction W as [|w ws Hw W IH]; cbn [List.app].
  - assert (S0 : is_space_c c = false) by (unfold is_space_c; lia). destruct G as [->|[->| ->]]; cbn [List.app skip_ws]; [rewrite S0|..]; cbn; [|reflexivity..].
    destruct (Z.eqb_spec c 45); [lia|]. destruct (Z.eqb_spec c 43); [lia|]. reflexivity.
  - cbn [skip_ws]. rewrite Hw. exact IH.
Qed.
Lemma cstr_app p r : Forall (fun c => c <> 0) p -> cstr (p ++ r) = p ++ cstr r.
Proof. induction 1 as [|c p N F IH]; [reflexivity|]. cbn [List.app cstr]. destruct (Z.eqb_spec c 0); [contradiction|]. rewrite IH. reflexivity. Qed.
Lemma cstr_hd (P : str -> Prop) r : (forall c t, P (c :: t) <-> P [c]) -> P [] -> P r -> P (cstr r).
Proof. intros A B. destruct r as [|c t]; [auto|]. intros H. cbn [cstr]. destruct (c =? 0); [exact B|]. apply A. apply A in H. exact H. Qed.
Lemma space_nonul ws : Forall (fun c => is_space_c c = true) ws -> Forall (fun c => c <> 0) ws.
Proof. apply Forall_impl. unfold is_space_c. lia. Qed.
Lemma sign_nonul sign : a_sign sign -> Forall (fun c => c <> 0) sign.
Proof. intros [->|[->| ->]]; repeat constructor; lia. Qed.
Lemma map_nonul ds : Forall (fun d => 0 <= d < 10) ds -> Forall (fun c => c <> 0) (map (fun d => 48 + d) ds).
Proof. induction 1; constructor; [lia|assumption]. Qed.

(** what sscanf reads *)
Lemma scan_decimal ws sign t w r : Forall (fun c => is_space_c c = true) ws -> a_sign sign -> canonical_unsigned 10 t w -> no_digit 10 r -> (t = [48] -> not_x r) ->
  scan_i (cstr (ws ++ sign ++ t ++ r)) = Some (sign_of sign w).
Proof.
  intros W G ((N & ds & F & ->) & _ & C) R X. pose proof (digits10 _ _ F) as (E & D).
  rewrite cstr_app by (apply space_nonul; exact W). rewrite cstr_app by (apply sign_nonul; exact G). rewrite cstr_app by (rewrite E; apply map_nonul; exact D).
  assert (R' : no_digit 10 (cstr r)) by (apply (cstr_hd (no_digit 10)); [reflexivity|exact Logic.I|exact R]).
  assert (X' : t = [48] -> not_x (cstr r)) by (intros Y; apply (cstr_hd not_x); [reflexivity|exact Logic.I|exact (X Y)]).
  clear R X. set (q := cstr r) in *. unfold scan_i. destruct ds as [|d ds]; [rewrite E in N; cbn in N; congruence|]. inversion D as [|? ? D1 D2]; subst.
  rewrite strip_ok; [|exact W|exact G|cbn [List.app map]; lia].
  destruct (Z.eq_dec d 0) as [->|ND].
  - specialize (C eq_refl). specialize (X' C). rewrite C. assert (ds = []) by (destruct ds; [reflexivity|discriminate]). subst ds. cbn [List.app]. change (48 =? 48) with true. cbv iota.
    destruct q as [|c q]; [destruct G as [->|[->| ->]]; reflexivity|]. cbn [not_x no_digit] in *. replace ((c =? 120) || (c =? 88)) with false by lia.
    cbn [take_digits]. destruct (digit_val c) as [e|] eqn:DV; [destruct (Z.ltb_spec e 8); [lia|]|]; destruct G as [->|[->| ->]]; reflexivity.
  - rewrite (take_digits_rest 10 _ (d :: ds) q F R'). cbn [List.app map]. destruct (Z.eqb_spec (48 + d) 48); [lia|]. destruct G as [->|[->| ->]]; reflexivity.
Qed.

(** A sign and a decimal numeral of a short, without superfluous zeros, give
    that short. *)
Theorem C86_parse_decimal : forall m sign t w, a_sign sign -> canonical_unsigned 10 t w -> is_short (sign_of sign w) ->
  exists a, parseShort m (sign ++ t) = Ok a /\ denotes a (sign_of sign w).
Proof.
  intros m sign t w G C S0. pose proof (scan_decimal [] sign t w [] (Forall_nil _) G C Logic.I (fun _ => Logic.I)) as E. cbn [List.app] in E. rewrite app_nil_r in E.
  exists (new (sign_of sign w)). split; [|apply new_denotes; exact S0]. unfold parseShort. rewrite E. set (v := sign_of sign w) in *. clearbody v. unfold is_short in S0. destruct m.
  - replace ((-32768 <=? v) && (v <=? 32767)) with true by lia. reflexivity.
  - unfold long_min, long_max. rewrite to_short_id by (unfold is_short; lia). do 2 f_equal. lia.
Qed.
Print Assumptions C86_parse_decimal.
(** Writing and reading back. *)
Theorem C86_round_trip : forall m a x, denotes a x -> exists b, parseShort m (toString a) = Ok b /\ denotes b x /\ ShortModel.eq a b = true.
Proof.
  intros m a x (S0 & V & [C|(t & w & E & W & C & ->)]).
  - destruct (C86_parse_decimal m [] (toString a) x (or_introl eq_refl) C S0) as (b & P & Q). exists b. split; [exact P|]. split; [exact Q|]. destruct Q as (_ & Q & _). unfold ShortModel.eq, value in *. cbn [sign_of] in Q. lia.
  - destruct (C86_parse_decimal m [45] t w (or_intror (or_intror eq_refl)) C S0) as (b & P & Q). rewrite E. exists b. split; [exact P|]. split; [exact Q|]. destruct Q as (_ & Q & _). unfold ShortModel.eq, value in *. cbn [sign_of] in Q. lia.
Qed.
Print Assumptions C86_round_trip.
Example C86_parse_ex : exists a, parseShort ISO (T "-32768") = Ok a /\ denotes a (-32768).
Proof.
  apply (C86_parse_decimal ISO [45] (T "32768") 32768); [right; right; reflexivity| |unfold is_short; cbn; lia].
  change (T "32768") with (itoa 32768). destruct (itoa_canonical 32768) as [C|(t & w & E & _)]; [exact C|discriminate].
Qed.

(** Java's parseShort throws NumberFormatException for anything but a sign and
    digits.  Here blanks before and any text after the number are ignored. *)
Theorem C86_parse_garbage_refuted : forall m ws sign t w r, Forall (fun c => is_space_c c = true) ws -> a_sign sign -> canonical_unsigned 10 t w -> is_short (sign_of sign w) ->
  no_digit 10 r -> (t = [48] -> not_x r) -> exists a, parseShort m (ws ++ sign ++ t ++ r) = Ok a /\ denotes a (sign_of sign w).
Proof.
  intros m ws sign t w r W G C S0 R X. pose proof (scan_decimal ws sign t w r W G C R X) as E. exists (new (sign_of sign w)). split; [|apply new_denotes; exact S0]. unfold parseShort. rewrite E.
  set (v := sign_of sign w) in *. clearbody v. unfold is_short in S0. destruct m.
  - replace ((-32768 <=? v) && (v <=? 32767)) with true by lia. reflexivity.
  - unfold long_min, long_max. rewrite to_short_id by (unfold is_short; lia). do 2 f_equal. lia.
Qed.
Print Assumptions C86_parse_garbage_refuted.
Example C86_garbage_ex : forall m, exists a, parseShort m (T "  -12abc") = Ok a /\ value a = -12.
Proof. intros m. eexists. split; [destruct m; vm_compute; reflexivity|]. reflexivity. Qed.
(** A number out of range is reduced modulo 2^16 (up to 2^63); the standard
    leaves it undefined.  Java throws. *)
Theorem C86_parse_range_refuted : forall sign t w, a_sign sign -> canonical_unsigned 10 t w -> ~ is_short (sign_of sign w) ->
  parseShort ISO (sign ++ t) = UB Precondition /\ (is_long (sign_of sign w) -> exists a z, parseShort HW (sign ++ t) = Ok a /\ denotes a z /\ narrowed (sign_of sign w) z).
Proof.
  intros sign t w G C S0. pose proof (scan_decimal [] sign t w [] (Forall_nil _) G C Logic.I (fun _ => Logic.I)) as E. cbn [List.app] in E. rewrite app_nil_r in E.
  unfold parseShort. rewrite E. set (v := sign_of sign w) in *. clearbody v. unfold is_short in S0. split.
  - replace ((-32768 <=? v) && (v <=? 32767)) with false by lia. reflexivity.
  - intros L. unfold is_long in L. replace (Z.max long_min (Z.min long_max v)) with v by lia. exists (new (to_short v)), (to_short v). split; [reflexivity|]. split; [apply new_denotes|]; apply to_short_ok.
Qed.
Print Assumptions C86_parse_range_refuted.
Example C86_range_ex : exists a, parseShort HW (T "40000") = Ok a /\ value a = -25536. Proof. eexists. split; [vm_compute; reflexivity|]. reflexivity. Qed.
(** Digits after a leading zero are read in base 8. *)
Theorem C86_parse_octal_refuted : forall m sign t w, a_sign sign -> numeral 8 t w -> is_short (sign_of sign w) ->
  exists a, parseShort m (sign ++ 48 :: t) = Ok a /\ denotes a (sign_of sign w).
Proof.
  intros m sign t w G (N & ds & F & ->) S0. exists (new (sign_of sign (numval 8 ds))). split; [|apply new_denotes; exact S0].
  assert (F10 : Forall (fun c => 48 <= c <= 57) t).
  { clear -F. induction F as [|c d s ds [Hc Hd] F IH]; constructor; auto. destruct (digit10 c d); [|lia]. split; [exact Hc|lia]. }
  unfold parseShort. rewrite cstr_id; [|apply Forall_app; split; [apply sign_nonul; exact G|constructor; [lia|eapply Forall_impl; [|exact F10]; cbn; lia]]].
  assert (E : scan_i (sign ++ 48 :: t) = Some (sign_of sign (numval 8 ds))).
  { unfold scan_i. pose proof (strip_ok [] sign (48 :: t) (Forall_nil _) G ltac:(cbn; lia)) as E. cbn [List.app] in E. rewrite E. change (48 =? 48) with true. cbv iota. rewrite (take_digits_all 8 t ds F). destruct t as [|c t]; [congruence|]. inversion F10; subst.
    replace ((c =? 120) || (c =? 88)) with false by lia. destruct G as [->|[->| ->]]; reflexivity. }
  rewrite E. set (v := sign_of sign (numval 8 ds)) in *. clearbody v. unfold is_short in S0. destruct m.
  - replace ((-32768 <=? v) && (v <=? 32767)) with true by lia. reflexivity.
  - unfold long_min, long_max. rewrite to_short_id by (unfold is_short; lia). do 2 f_equal. lia.
Qed.
Print Assumptions C86_parse_octal_refuted.
Example C86_octal_ex : forall m, (exists a, parseShort m (T "010") = Ok a /\ value a = 8) /\ exists a, parseShort m (T "0x1F") = Ok a /\ value a = 31.
Proof. intros m. split; eexists; (split; [destruct m; vm_compute; reflexivity|]); reflexivity. Qed.
(** A text in which no number begins leaves the result indeterminate. *)
Theorem C86_parse_nothing_refuted : forall m ws r, Forall (fun c => is_space_c c = true) ws -> (match r with c :: _ => is_space_c c = false /\ c <> 43 /\ c <> 45 | [] => True end) -> no_digit 10 r ->
  parseShort m (ws ++ r) = UB Uninitialised.
Proof.
  intros m ws r W H R. unfold parseShort. rewrite cstr_app by (apply space_nonul; exact W).
  assert (E : scan_i (ws ++ cstr r) = None); [|rewrite E; reflexivity]. unfold scan_i. assert (K : skip_ws (ws ++ cstr r) = cstr r).
  { induction W as [|c ws Hc W IH]; cbn [List.app skip_ws]; [|rewrite Hc; exact IH]. destruct r as [|c r]; [reflexivity|]. cbn [cstr]. destruct (c =? 0); [reflexivity|]. cbn [skip_ws]. rewrite (proj1 H). reflexivity. }
  rewrite K. destruct r as [|c r]; [reflexivity|]. cbn [cstr no_digit] in *. destruct (c =? 0); [reflexivity|]. destruct H as (_ & H1 & H2). cbn [strip_sign]. destruct (Z.eqb_spec c 45); [lia|]. destruct (Z.eqb_spec c 43); [lia|].
  destruct (Z.eqb_spec c 48) as [->|N]; [exfalso; cbn in R; lia|]. cbn [take_digits]. destruct (digit_val c) as [d|]; [|reflexivity]. destruct (Z.ltb_spec d 10); [lia|reflexivity].
Qed.
Print Assumptions C86_parse_nothing_refuted.
Example C86_nothing_ex : parseShort HW (T "") = UB Uninitialised /\ parseShort HW (T "x") = UB Uninitialised /\ parseShort HW (T "-") = UB Uninitialised.
Proof. repeat split; reflexivity. Qed.
