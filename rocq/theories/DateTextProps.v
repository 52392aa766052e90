(** C99: the texts of dates; C100: SimpleDateFormat, TimeZone, System.getenv. *)

From Coq Require Import ZArith List Lia Bool String.
From Verif Require Import Base Bits CppText TextSpec TextLemmas StringSpec StringModel StringProofs StringProps DateSpec DateModel DateProofs
  DateParseProofs DateParseProofs2 DateParseProps DateProps ShortProps DateTextSpec DateTextModel.
Import ListNotations.
Open Scope string_scope.
Open Scope list_scope.
Open Scope Z_scope.
Local Strategy 1000 [broken_down instant civil epoch_day].

(** ** Lemmas *)
Lemma pad2_ok n : 0 <= n <= 99 -> two_digits (pad2 n) n.
Proof.
  intros R. unfold pad2. pose proof (Z.div_mod n 10 ltac:(lia)). pose proof (Z.mod_pos_bound n 10 ltac:(lia)).
  rewrite (Z.mod_small (n / 10)) by lia.
  split; [|reflexivity]. split; [discriminate|]. exists [n / 10; n mod 10]. split.
  - assert (D : forall x, 0 <= x <= 9 -> is_digit 10 (48 + x) x).
    { intros x X. split; [|lia]. unfold digit_val, is_digit_c.
      replace ((48 <=? 48 + x) && (48 + x <=? 57)) with true by lia. f_equal. lia. }
    constructor; [apply D; lia|]. constructor; [apply D; lia|constructor].
  - unfold numval. cbn [fold_left]. lia.
Qed.
Lemma two_unique s n : two_digits s n -> s = pad2 n /\ 0 <= n <= 99.
Proof.
  intros [(_ & ds & F & V) L]. destruct s as [|a [|b [|]]]; try discriminate.
  inversion F as [|? x ? ? D1 F1]; subst. inversion F1 as [|? y ? ? D2 F2]; subst. inversion F2; subst.
  apply digit10 in D1 as [-> R1]. apply digit10 in D2 as [-> R2].
  unfold numval; cbn [fold_left]. unfold pad2.
  replace ((0 * 10 + x) * 10 + y) with (x * 10 + y) by lia.
  assert (Q : (x * 10 + y) / 10 = x) by (symmetry; apply (Z.div_unique _ _ _ y); lia).
  assert (M : (x * 10 + y) mod 10 = y) by (symmetry; apply (Z.mod_unique _ _ x); lia).
  rewrite Q, M, Z.mod_small by lia. split; [reflexivity|lia].
Qed.
Lemma year_ok v : 0 <= v -> canonical_unsigned 10 (itoa v) v.
Proof. intros V. unfold itoa. destruct (Z.ltb_spec v 0); [lia|]. apply utoa_canonical; lia. Qed.
Lemma year_unique s v : canonical_unsigned 10 s v -> s = itoa v /\ 0 <= v.
Proof.
  intros C. assert (V : 0 <= v).
  { destruct C as ((_ & ds & F & ->) & _). pose proof (digits10 _ _ F) as [_ D]. pose proof (numval_bound 10 ds ltac:(lia) D); lia. }
  split; [|exact V]. eapply canonical10_unique; [exact C|apply year_ok; exact V].
Qed.
Lemma day_name f : short_day f (pick day_abbreviations (tm_wday f)) /\ forall s, short_day f s -> s = pick day_abbreviations (tm_wday f).
Proof.
  unfold short_day, tm_wday. generalize (epoch_day (f_year f + 1900) (f_month f) (f_day f)). intros e.
  assert (A : (e + 4) mod 7 = ((e + 3) mod 7 + 1) mod 7) by (rewrite Zplus_mod_idemp_l; f_equal; lia).
  rewrite A. pose proof (Z.mod_pos_bound (e + 3) 7 ltac:(lia)) as B. revert B. generalize ((e + 3) mod 7). intros k B.
  assert (K : k = 0 \/ k = 1 \/ k = 2 \/ k = 3 \/ k = 4 \/ k = 5 \/ k = 6) by lia.
  split.
  - destruct K as [->|[->|[->|[->|[->|[->| ->]]]]]]; (eexists; split; [reflexivity|]); do 4 eexists; split; reflexivity.
  - intros s (n & N & a & b & c & r & -> & ->).
    destruct K as [->|[->|[->|[->|[->|[->| ->]]]]]]; cbn in N; injection N as <- <- <- <-; reflexivity.
Qed.
Lemma month_name f : 0 <= f_month f <= 11 ->
  short_month f (pick month_abbreviations (f_month f)) /\ forall s, short_month f s -> s = pick month_abbreviations (f_month f).
Proof.
  unfold short_month. generalize (f_month f). intros k B.
  assert (K : k = 0 \/ k = 1 \/ k = 2 \/ k = 3 \/ k = 4 \/ k = 5 \/ k = 6 \/ k = 7 \/ k = 8 \/ k = 9 \/ k = 10 \/ k = 11) by lia.
  split.
  - destruct K as [->|[->|[->|[->|[->|[->|[->|[->|[->|[->|[->| ->]]]]]]]]]]]; (eexists; split; [reflexivity|]); do 4 eexists; split; reflexivity.
  - intros s (n & N & a & b & c & r & -> & ->).
    destruct K as [->|[->|[->|[->|[->|[->|[->|[->|[->|[->|[->| ->]]]]]]]]]]]; cbn in N; injection N as <- <- <- <-; reflexivity.
Qed.
Lemma clock_ok f : proper f -> clock f (pad2 (f_hour f) ++ T ":" ++ pad2 (f_minute f) ++ T ":" ++ pad2 (f_second f)).
Proof. intros (_ & _ & H & M & S). do 3 eexists. repeat split; try (apply pad2_ok; lia). Qed.
Lemma clock_unique f s : clock f s -> s = pad2 (f_hour f) ++ T ":" ++ pad2 (f_minute f) ++ T ":" ++ pad2 (f_second f).
Proof.
  intros (h & m & c & H & M & C & ->). apply two_unique in H as [-> _]. apply two_unique in M as [-> _]. apply two_unique in C as [-> _]. reflexivity.
Qed.
Lemma half_hour h : 0 <= h <= 23 -> exists k, 1 <= k <= 12 /\ h = on_clock (12 <=? h) k /\ (if h mod 12 =? 0 then 12 else h mod 12) = k /\
  forall k', 1 <= k' <= 12 -> h = on_clock (12 <=? h) k' -> k' = k.
Proof.
  intros H. pose proof (Z.mod_pos_bound h 12 ltac:(lia)). pose proof (Z.div_mod h 12 ltac:(lia)).
  eexists. split; [|split; [|split; [reflexivity|]]]; [destruct (Z.eqb_spec (h mod 12) 0); lia| |].
  - unfold on_clock. destruct (Z.eqb_spec (h mod 12) 0) as [E|E]; [change (12 mod 12) with 0|rewrite Z.mod_mod by lia]; destruct (Z.leb_spec 12 h); lia.
  - intros k' K. unfold on_clock. intros E.
    assert (C : k' = 12 \/ k' mod 12 = k') by (destruct (Z.eq_dec k' 12); [auto|right; apply Z.mod_small; lia]).
    destruct C as [->|C]; [change (12 mod 12) with 0 in E|rewrite C in E];
    destruct (Z.leb_spec 12 h), (Z.eqb_spec (h mod 12) 0); try lia.
Qed.

(** The text of a pattern of modelled directives is the one written. *)
Lemma expand_written L f z p s : proper f -> written f z p s -> expand L z f p = s.
Proof.
  intros P W. induction W; cbn [expand]; auto;
    try (change (37 =? 37) with true; cbv iota).
  - destruct (Z.eqb_spec c 37); [contradiction|]. now rewrite IHW.
  - change (directive z f 37) with (Some [37]). cbv iota. now rewrite IHW.
  - change (directive z f 89) with (Some (itoa (f_year f + 1900))). cbv iota. apply year_unique in H as [-> _]. now rewrite IHW.
  - change (directive z f 109) with (Some (pad2 (f_month f + 1))). cbv iota. apply two_unique in H as [-> _]. now rewrite IHW.
  - change (directive z f 100) with (Some (pad2 (f_day f))). cbv iota. apply two_unique in H as [-> _]. now rewrite IHW.
  - change (directive z f 72) with (Some (pad2 (f_hour f))). cbv iota. apply two_unique in H as [-> _]. now rewrite IHW.
  - change (directive z f 77) with (Some (pad2 (f_minute f))). cbv iota. apply two_unique in H as [-> _]. now rewrite IHW.
  - change (directive z f 83) with (Some (pad2 (f_second f))). cbv iota. apply two_unique in H as [-> _]. now rewrite IHW.
  - change (directive z f 121) with (Some (pad2 ((f_year f + 1900) mod 100))). cbv iota. apply two_unique in H as [-> _]. now rewrite IHW.
  - change (directive z f 70) with (Some (itoa (f_year f + 1900) ++ T "-" ++ pad2 (f_month f + 1) ++ T "-" ++ pad2 (f_day f))). cbv iota.
    apply year_unique in H as [-> _]. apply two_unique in H0 as [-> _]. apply two_unique in H1 as [-> _]. rewrite IHW, <- !app_assoc. reflexivity.
  - change (directive z f 84) with (Some (pad2 (f_hour f) ++ T ":" ++ pad2 (f_minute f) ++ T ":" ++ pad2 (f_second f))). cbv iota.
    apply clock_unique in H as ->. now rewrite IHW.
  - change (directive z f 97) with (Some (pick day_abbreviations (tm_wday f))). cbv iota. apply (proj2 (day_name f)) in H as ->. now rewrite IHW.
  - change (directive z f 98) with (Some (pick month_abbreviations (f_month f))). cbv iota. apply (proj2 (month_name f ltac:(apply P))) in H as ->. now rewrite IHW.
  - change (directive z f 73) with (Some (pad2 (if f_hour f mod 12 =? 0 then 12 else f_hour f mod 12))). cbv iota.
    destruct (half_hour (f_hour f)) as (k & _ & _ & -> & U); [apply P|]. rewrite <- (U h H H0). apply two_unique in H1 as [-> _]. now rewrite IHW.
  - change (directive z f 112) with (Some (if f_hour f <? 12 then T "AM" else T "PM")). cbv iota. now rewrite IHW.
  - change (directive z f 90) with (Some z). cbv iota. now rewrite IHW.
Qed.

(** ** C99: the texts of Date *)
Lemma text_len f : 0 <= f_year f + 1900 <= 3000000000 -> 1 <= zlen (itoa (f_year f + 1900)) <= 10.
Proof.
  intros Y. pose proof (year_ok (f_year f + 1900) ltac:(lia)) as ((N & ds & F & V) & _ & C).
  pose proof (digits10 _ _ F) as [E D].
  assert (L : List.length (itoa (f_year f + 1900)) = List.length ds) by (rewrite E; apply map_length).
  set (v := f_year f + 1900) in *. clearbody v.
  assert (ZL : zlen (itoa v) = zlen ds) by (unfold zlen; rewrite L; reflexivity). rewrite ZL. rewrite E in C, N.
  destruct ds as [|d ds]; [cbn in N; congruence|]. split; [unfold zlen; cbn [List.length]; lia|].
  cbn [map hd] in C. destruct (Z.eq_dec d 0) as [->|N0].
  - specialize (C eq_refl). injection C as C. destruct ds; [cbn; lia|discriminate].
  - rewrite numval_cons in V. inversion D; subst. pose proof (numval_bound 10 ds ltac:(lia) ltac:(auto)) as B.
    rewrite zlen_cons. destruct (Z_le_dec 10 (zlen ds)) as [G|G]; [|lia].
    pose proof (Z.pow_le_mono_r 10 10 (zlen ds) ltac:(lia) G) as M. change (10 ^ 10) with 10000000000 in M. nia.
Qed.
Lemma itoa_nonul v : 0 <= v -> Forall (fun c => c <> 0) (itoa v).
Proof.
  intros V. destruct (year_ok v V) as ((_ & ds & F & _) & _). clear V. revert F. generalize (itoa v). intros s F.
  induction F as [|c d s ds D F IH]; constructor; auto. apply digit10 in D. lia.
Qed.
Lemma pad2_nonul n : 0 <= n <= 99 -> Forall (fun c => c <> 0) (pad2 n).
Proof.
  intros R. unfold pad2. pose proof (Z.mod_pos_bound (n / 10) 10 ltac:(lia)). pose proof (Z.mod_pos_bound n 10 ltac:(lia)).
  repeat constructor; lia.
Qed.
Lemma day_shape f : exists a b c, pick day_abbreviations (tm_wday f) = [a; b; c] /\ a <> 0 /\ b <> 0 /\ c <> 0.
Proof.
  unfold tm_wday. pose proof (Z.mod_pos_bound (epoch_day (f_year f + 1900) (f_month f) (f_day f) + 4) 7 ltac:(lia)) as B.
  revert B. generalize ((epoch_day (f_year f + 1900) (f_month f) (f_day f) + 4) mod 7). intros k B.
  assert (K : k = 0 \/ k = 1 \/ k = 2 \/ k = 3 \/ k = 4 \/ k = 5 \/ k = 6) by lia.
  destruct K as [->|[->|[->|[->|[->|[->| ->]]]]]]; do 3 eexists; (split; [reflexivity|]); repeat split; discriminate.
Qed.
Lemma month_shape f : 0 <= f_month f <= 11 -> exists a b c, pick month_abbreviations (f_month f) = [a; b; c] /\ a <> 0 /\ b <> 0 /\ c <> 0.
Proof.
  generalize (f_month f). intros k B.
  assert (K : k = 0 \/ k = 1 \/ k = 2 \/ k = 3 \/ k = 4 \/ k = 5 \/ k = 6 \/ k = 7 \/ k = 8 \/ k = 9 \/ k = 10 \/ k = 11) by lia.
  destruct K as [->|[->|[->|[->|[->|[->|[->|[->|[->|[->|[->| ->]]]]]]]]]]]; do 3 eexists; (split; [reflexivity|]); repeat split; discriminate.
Qed.
Lemma month_length_99 y m : month_length y m <= 31.
Proof. apply month_length_pos. Qed.

Ltac nn := repeat (apply Forall_app; split); first [assumption | apply pad2_nonul; lia | repeat constructor; first [assumption | cbv; discriminate]].

(** What the fields must be for a text: a calendar date of the years 0 to 3 * 10^9. *)
Definition shown (f : fields) : Prop := proper f /\ 0 <= f_year f + 1900 <= 3000000000.

Lemma toString_text L zn f : shown f -> Forall (fun c => c <> 0) zn -> zlen zn <= 60 ->
  timeToString L zn (T "%a %b %d %T %Z %Y") f =
  Ok (pick day_abbreviations (tm_wday f) ++ T " " ++ pick month_abbreviations (f_month f) ++ T " " ++ pad2 (f_day f) ++ T " " ++
      (pad2 (f_hour f) ++ T ":" ++ pad2 (f_minute f) ++ T ":" ++ pad2 (f_second f)) ++ T " " ++ zn ++ T " " ++ itoa (f_year f + 1900)).
Proof.
  intros [P Y] N LZ. unfold timeToString, strftime.
  change (cstr (T "%a %b %d %T %Z %Y")) with (T "%a %b %d %T %Z %Y").
  pose proof (month_length_99 (f_year f + 1900) (f_month f)).
  assert (W : written f zn (T "%a %b %d %T %Z %Y")
    (pick day_abbreviations (tm_wday f) ++ T " " ++ pick month_abbreviations (f_month f) ++ T " " ++ pad2 (f_day f) ++ T " " ++
      (pad2 (f_hour f) ++ T ":" ++ pad2 (f_minute f) ++ T ":" ++ pad2 (f_second f)) ++ T " " ++ zn ++ T " " ++ itoa (f_year f + 1900))).
  { apply w_day_name; [apply day_name|]. apply w_char; [cbv; discriminate|]. apply w_month_name; [apply month_name; apply P|]. apply w_char; [cbv; discriminate|].
    apply w_day; [apply pad2_ok; destruct P as (_ & D & _); lia|]. apply w_char; [cbv; discriminate|]. apply w_clock; [apply clock_ok; exact P|].
    apply w_char; [cbv; discriminate|]. apply w_zone. apply w_char; [cbv; discriminate|]. rewrite <- (app_nil_r (itoa _)). apply w_year; [apply year_ok; lia|constructor]. }
  rewrite (expand_written L _ _ _ _ P W). clear W.
  destruct (day_shape f) as (a1 & a2 & a3 & -> & A1 & A2 & A3). destruct (month_shape f) as (b1 & b2 & b3 & -> & B1 & B2 & B3); [apply P|].
  pose proof (text_len f Y). pose proof (itoa_nonul (f_year f + 1900) ltac:(lia)) as IN.
  destruct P as (_ & D & HH & MM & SS).
  match goal with |- (if zlen ?s <? 100 then _ else _) = _ => assert (LS : zlen s < 100); [|destruct (Z.ltb_spec (zlen s) 100); [|lia]] end.
  { rewrite !zlen_app. unfold pad2. change (zlen (T " ")) with 1. change (zlen (T ":")) with 1. unfold zlen in *. cbn [List.length]. lia. }
  f_equal. apply cstr_id. nn.
Qed.
Lemma gmt_text L zn f : shown f ->
  timeToString L zn (T "%d %b %Y %T GMT") f =
  Ok (pad2 (f_day f) ++ T " " ++ pick month_abbreviations (f_month f) ++ T " " ++ itoa (f_year f + 1900) ++ T " " ++
      (pad2 (f_hour f) ++ T ":" ++ pad2 (f_minute f) ++ T ":" ++ pad2 (f_second f)) ++ T " GMT").
Proof.
  intros [P Y]. unfold timeToString, strftime.
  change (cstr (T "%d %b %Y %T GMT")) with (T "%d %b %Y %T GMT").
  pose proof (month_length_99 (f_year f + 1900) (f_month f)).
  assert (W : written f zn (T "%d %b %Y %T GMT")
    (pad2 (f_day f) ++ T " " ++ pick month_abbreviations (f_month f) ++ T " " ++ itoa (f_year f + 1900) ++ T " " ++
      (pad2 (f_hour f) ++ T ":" ++ pad2 (f_minute f) ++ T ":" ++ pad2 (f_second f)) ++ T " GMT")).
  { apply w_day; [apply pad2_ok; destruct P as (_ & D & _); lia|]. apply w_char; [cbv; discriminate|]. apply w_month_name; [apply month_name; apply P|]. apply w_char; [cbv; discriminate|].
    apply w_year; [apply year_ok; lia|]. apply w_char; [cbv; discriminate|]. apply w_clock; [apply clock_ok; exact P|].
    repeat (apply w_char; [cbv; discriminate|]). constructor. }
  rewrite (expand_written L _ _ _ _ P W). clear W.
  destruct (month_shape f) as (b1 & b2 & b3 & -> & B1 & B2 & B3); [apply P|].
  pose proof (text_len f Y). pose proof (itoa_nonul (f_year f + 1900) ltac:(lia)) as IN.
  destruct P as (_ & D & HH & MM & SS).
  match goal with |- (if zlen ?s <? 100 then _ else _) = _ => assert (LS : zlen s < 100); [|destruct (Z.ltb_spec (zlen s) 100); [|lia]] end.
  { rewrite !zlen_app. unfold pad2. change (zlen (T " ")) with 1. change (zlen (T ":")) with 1. change (zlen (T " GMT")) with 4. unfold zlen in *. cbn [List.length]. lia. }
  f_equal. apply cstr_id. nn.
Qed.
Lemma locale_text L zn f : shown f -> exists h, 1 <= h <= 12 /\ f_hour f = on_clock (12 <=? f_hour f) h /\
  timeToString L zn (T "%b %d, %Y %I:%M:%S %p") f =
  Ok (pick month_abbreviations (f_month f) ++ T " " ++ pad2 (f_day f) ++ T ", " ++ itoa (f_year f + 1900) ++ T " " ++
      pad2 h ++ T ":" ++ pad2 (f_minute f) ++ T ":" ++ pad2 (f_second f) ++ T " " ++ (if f_hour f <? 12 then [65; 77] else [80; 77])).
Proof.
  intros [P Y]. destruct (half_hour (f_hour f)) as (h & H1 & H2 & _); [apply P|]. exists h. split; [exact H1|]. split; [exact H2|].
  unfold timeToString, strftime.
  change (cstr (T "%b %d, %Y %I:%M:%S %p")) with (T "%b %d, %Y %I:%M:%S %p").
  pose proof (month_length_99 (f_year f + 1900) (f_month f)).
  assert (W : written f zn (T "%b %d, %Y %I:%M:%S %p")
    (pick month_abbreviations (f_month f) ++ T " " ++ pad2 (f_day f) ++ T ", " ++ itoa (f_year f + 1900) ++ T " " ++
      pad2 h ++ T ":" ++ pad2 (f_minute f) ++ T ":" ++ pad2 (f_second f) ++ T " " ++ (if f_hour f <? 12 then [65; 77] else [80; 77]))).
  { apply w_month_name; [apply month_name; apply P|]. apply w_char; [cbv; discriminate|]. destruct P as (_ & D & HH & MM & SS).
    apply w_day; [apply pad2_ok; lia|]. apply w_char; [cbv; discriminate|]. apply w_char; [cbv; discriminate|].
    apply w_year; [apply year_ok; lia|]. apply w_char; [cbv; discriminate|]. apply (w_half_hour _ _ _ _ _ h H1 H2); [apply pad2_ok; lia|]. apply w_char; [cbv; discriminate|].
    apply w_minute; [apply pad2_ok; lia|]. apply w_char; [cbv; discriminate|]. apply w_second; [apply pad2_ok; lia|]. apply w_char; [cbv; discriminate|].
    rewrite <- (app_nil_r (if f_hour f <? 12 then [65; 77] else [80; 77])). apply w_half_day. constructor. }
  rewrite (expand_written L _ _ _ _ P W). clear W.
  destruct (month_shape f) as (b1 & b2 & b3 & -> & B1 & B2 & B3); [apply P|].
  pose proof (text_len f Y). pose proof (itoa_nonul (f_year f + 1900) ltac:(lia)) as IN.
  destruct P as (_ & D & HH & MM & SS).
  match goal with |- (if zlen ?s <? 100 then _ else _) = _ => assert (LS : zlen s < 100); [|destruct (Z.ltb_spec (zlen s) 100); [|lia]] end.
  { rewrite !zlen_app. unfold pad2. change (zlen (T " ")) with 1. change (zlen (T ":")) with 1. change (zlen (T ", ")) with 2. destruct (f_hour f <? 12); unfold zlen in *; cbn [List.length]; lia. }
  f_equal. apply cstr_id. destruct (f_hour f <? 12); nn.
Qed.

(** The zone: its offset from UTC and its name. *)
Definition zone_named (off : Z) (zn : str) : Prop := zone off /\ Forall (fun c => c <> 0) zn /\ zlen zn <= 60.

Section C99.
Context (L : clib) (off : Z) (zn : str) (Zn : zone_named off zn).
Context (buf : fields) (ds : list Date) (R : reachable off (buf, ds)) (i : nat) (d : Date) (D : nth_error ds i = Some d).

(** toString of any date of a program is "weekday month day hh:mm:ss zone
    year" of the date's own instant, from the year 0 on. (-1 is what mktime
    returns for a date that cannot be represented.) *)
Theorem C99_toString : forall f, proper f -> instant off f = timer d -> timer d <> -1 -> 0 <= f_year f + 1900 ->
  exists wt mt dt ct yt,
    short_day f wt /\ short_month f mt /\ two_digits dt (f_day f) /\ clock f ct /\ canonical_unsigned 10 yt (f_year f + 1900) /\
    date_toString L zn d = Ok (wt ++ T " " ++ mt ++ T " " ++ dt ++ T " " ++ ct ++ T " " ++ zn ++ T " " ++ yt).
Proof.
  destruct Zn as (O & N & LZ). intros f P I T0 Y.
  destruct (at_inv off buf ds i d O R D) as [F [B|B]]; [|contradiction].
  assert (E : backUp d = f) by (rewrite B, <- I; apply broken_down_proper; exact P).
  assert (S : shown f).
  { split; [exact P|]. rewrite <- B, E in F. unfold year_fits in F. apply andb_prop in F as [_ F]. apply Z.leb_le in F. unfold int_max in F. lia. }
  do 5 eexists. split; [apply day_name|]. split; [apply month_name; apply S|].
  pose proof (month_length_99 (f_year f + 1900) (f_month f)).
  split; [apply pad2_ok; destruct S as [(_ & Q & _) _]; lia|]. split; [apply clock_ok; apply S|]. split; [apply year_ok; lia|].
  unfold date_toString. rewrite E. apply toString_text; auto.
Qed.

(** toLocaleString: the right form, 12-hour clock and AM or PM, of the time
    the shared buffer holds. *)
Theorem C99_toLocaleString_partial : shown (get_fields buf d) ->
  let f := get_fields buf d in
  exists mt dt yt h ht it st, short_month f mt /\ two_digits dt (f_day f) /\ canonical_unsigned 10 yt (f_year f + 1900) /\
    1 <= h <= 12 /\ f_hour f = on_clock (12 <=? f_hour f) h /\ two_digits ht h /\ two_digits it (f_minute f) /\ two_digits st (f_second f) /\
    toLocaleString L zn buf d = Ok (mt ++ T " " ++ dt ++ T ", " ++ yt ++ T " " ++ ht ++ T ":" ++ it ++ T ":" ++ st ++ T " " ++ if f_hour f <? 12 then T "AM" else T "PM").
Proof.
  intros S f. destruct (locale_text L zn f S) as (h & H1 & H2 & E).
  pose proof (month_length_99 (f_year f + 1900) (f_month f)). destruct S as [P Y]. fold f in P, Y.
  do 3 eexists. exists h. do 3 eexists. split; [apply month_name; apply P|]. split; [apply pad2_ok; destruct P as (_ & Q & _); lia|].
  split; [apply year_ok; lia|]. split; [exact H1|]. split; [exact H2|]. split; [apply pad2_ok; lia|]. destruct P as (_ & _ & HH & MM & SS).
  split; [apply pad2_ok; lia|]. split; [apply pad2_ok; lia|]. unfold toLocaleString. exact E.
Qed.

(** toGMTString is "day month year hh:mm:ss GMT" of the date's instant in
    UTC, in every zone. *)
Theorem C99_toGMTString : forall f, proper f -> instant 0 f = timer d -> 0 <= f_year f + 1900 -> timer d <= 50000000000000000 ->
  exists dt mt yt ct,
    two_digits dt (f_day f) /\ short_month f mt /\ canonical_unsigned 10 yt (f_year f + 1900) /\ clock f ct /\
    toGMTString L off zn d = Ok (dt ++ T " " ++ mt ++ T " " ++ yt ++ T " " ++ ct ++ T " GMT", f).
Proof.
  destruct Zn as (O & _). intros f P I Y U. unfold zone in O.
  pose proof (year_day_bounds (f_year f + 1900) (f_month f) (f_day f) ltac:(apply P) ltac:(apply P)) as B.
  assert (I' : instant 0 f = epoch_day (f_year f + 1900) (f_month f) (f_day f) * 86400 + f_hour f * 3600 + f_minute f * 60 + f_second f).
  { unfold instant. destruct P as (M & _). rewrite Z.div_small, Z.mod_small by lia. rewrite !Z.add_0_r. lia. }
  assert (LO : -100000000000 <= timer d).
  { rewrite <- I, I'. destruct P as (_ & _ & HH & MM & SS). destruct (f_year f + 1900 <? 1970) eqn:?; lia. }
  assert (HI : f_year f + 1900 <= 3000000000).
  { rewrite I' in I. destruct P as (_ & _ & HH & MM & SS). destruct (f_year f + 1900 <? 1970) eqn:?; lia. }
  do 4 eexists.
  pose proof (month_length_99 (f_year f + 1900) (f_month f)).
  split; [apply pad2_ok; destruct P as (_ & Q & _); lia|]. split; [apply month_name; apply P|]. split; [apply year_ok; lia|]. split; [apply clock_ok; exact P|].
  assert (E0 : broken_down 0 (timer d) = f) by (rewrite <- I; apply broken_down_proper; exact P).
  unfold toGMTString, getUTCTime. rewrite localtime_near by lia. rewrite E0.
  assert (E1 : instant off f = timer d - off) by (rewrite <- I; unfold instant; lia).
  assert (E2 : broken_down off (timer d - off) = f).
  { rewrite <- E0. unfold broken_down. replace (timer d - off + off) with (timer d + 0) by lia. reflexivity. }
  unfold mktime. rewrite E1, fits_near by lia. cbn [fst bind]. rewrite localtime_near by lia. rewrite E2.
  rewrite gmt_text by (split; [exact P|lia]). reflexivity.
Qed.

(** Date.parse reads the text of toGMTString back, in every zone and at every
    moment, from the year 100 on. So dates with the same text are equal. *)
Theorem C99_round_trip : forall m now f, proper f -> instant 0 f = timer d -> 100 <= f_year f + 1900 <= 290000000 -> sane_now now ->
  exists s b, toGMTString L off zn d = Ok (s, b) /\ parse m off now s = Ok (1000 * timer d).
Proof.
  intros m now f P I Y SN.
  pose proof (year_day_bounds (f_year f + 1900) (f_month f) (f_day f) ltac:(apply P) ltac:(apply P)) as B.
  assert (I' : instant 0 f = epoch_day (f_year f + 1900) (f_month f) (f_day f) * 86400 + f_hour f * 3600 + f_minute f * 60 + f_second f).
  { unfold instant. destruct P as (M & _). rewrite Z.div_small, Z.mod_small by lia. rewrite !Z.add_0_r. lia. }
  assert (HI : timer d <= 50000000000000000).
  { rewrite <- I, I'. destruct P as (_ & _ & HH & MM & SS). destruct (f_year f + 1900 <? 1970) eqn:?; lia. }
  destruct (C99_toGMTString f P I ltac:(lia) HI) as (dt & mt & yt & ct & DT & MT & YT & (h & mi & se & H & MI & SE & ->) & ->).
  do 2 eexists. split; [reflexivity|].
  assert (MW : month_word (f_month f) mt).
  { destruct MT as (n & N & a & b & c & r & -> & ->). eexists. split; [exact N|]. exists 3%nat. split; [cbn; lia|].
    repeat constructor; unfold letter_of; lia. }
  assert (G : greenwich (T "GMT")) by (left; repeat constructor; unfold letter_of; lia).
  destruct (year_unique _ _ YT) as [EY _]. pose proof (text_len f ltac:(lia)) as LY. rewrite <- EY in LY.
  destruct DT as [DT LD], H as [H LH], MI as [MI LM], SE as [SE LS]. destruct MT as (n & N & a & b & c & r & -> & E3).
  pose proof (C60_gmt m off now f dt mt yt h mi se (T "GMT") ltac:(apply Zn) SN (conj P Y) DT MW (proj1 YT) H MI SE G) as C.
  cbv zeta in C. rewrite I in C. rewrite <- C.
  - f_equal. rewrite <- !app_assoc. reflexivity.
  - unfold small, int_max. rewrite !zlen_app, E3. change (T " ") with [32]. change (T ":") with [58]. change (T "GMT") with [71;77;84]. unfold zlen in *. cbn [List.length]. lia.
Qed.

(** It reads the text of toString back where the local time is called GMT, UT or UTC. *)
Theorem C99_round_trip_string_partial : forall m now f, proper f -> instant 0 f = timer d -> 100 <= f_year f + 1900 <= 290000000 -> sane_now now ->
  timer d <> -1 -> off = 0 -> greenwich zn ->
  exists s, date_toString L zn d = Ok s /\ parse m off now s = Ok (1000 * timer d).
Proof.
  intros m now f P I Y SN T0 O0 G. rewrite <- O0 in I at 1.
  destruct (C99_toString f P I T0 ltac:(lia)) as (wt & mt & dt & ct & yt & WT & MT & DT & (h & mi & se & H & MI & SE & ->) & YT & ->).
  eexists. split; [reflexivity|].
  assert (MW : month_word (f_month f) mt).
  { destruct MT as (n & N & a & b & c & r & -> & ->). eexists. split; [exact N|]. exists 3%nat. split; [cbn; lia|].
    repeat constructor; unfold letter_of; lia. }
  assert (DW : day_word wt).
  { destruct WT as (n & N & a & b & c & r & -> & ->). eexists. split; [eapply nth_error_In; exact N|]. exists 3%nat. split; [cbn; lia|].
    repeat constructor; unfold letter_of; lia. }
  destruct (year_unique _ _ YT) as [EY _]. pose proof (text_len f ltac:(lia)) as LY. rewrite <- EY in LY.
  destruct DT as [DT LD], H as [H LH], MI as [MI LM], SE as [SE LS]. destruct MT as (n & N & a & b & c & r & -> & E3).
  destruct WT as (n' & N' & a' & b' & c' & r' & -> & E4).
  pose proof (C60_toString m off now f wt mt dt h mi se zn yt ltac:(apply Zn) SN (conj P Y) DW MW DT H MI SE G (proj1 YT)) as C.
  cbv zeta in C. rewrite O0 in I. rewrite I in C. rewrite <- C.
  - f_equal. rewrite <- !app_assoc. reflexivity.
  - destruct Zn as (_ & _ & LZ). unfold small, int_max. rewrite !zlen_app, E3, E4. change (T " ") with [32]. change (T ":") with [58]. unfold zlen in *. cbn [List.length]. lia.
Qed.
End C99.
Print Assumptions C99_toString.
Print Assumptions C99_toLocaleString_partial.
Print Assumptions C99_toGMTString.
Print Assumptions C99_round_trip.
Print Assumptions C99_round_trip_string_partial.

(** toLocaleString shows the date made last instead of its own. *)
Theorem C99_toLocaleString_refuted : forall L zn, exists d e b, reachable 0 (b, [d; e]) /\ timer d <> timer e /\
  toLocaleString L zn b d = toLocaleString L zn b e.
Proof.
  intros L zn. destruct C70_getters_refuted as (d & e & b & R & N & E & _). exists d, e, b. split; [exact R|]. split; [exact N|].
  unfold toLocaleString. now rewrite E.
Qed.
Print Assumptions C99_toLocaleString_refuted.

Definition test_lib : clib := {| other := fun _ _ => []; zone_offset := fun _ => 25200; zone_name := fun _ => T "+07" |}.
Definition test_date : Date := {| timer := 1550607665; backUp := broken_down 25200 1550607665 |}.
(** In a zone whose name Date.parse does not know, toString is not read back. *)
Theorem C99_round_trip_string_refuted : reachable 25200 (broken_down 25200 1550607665, [test_date]) /\
  exists s, date_toString test_lib (T "+07") test_date = Ok s /\ parse HW 25200 1700000000 s = Throw InterruptedException.
Proof.
  split.
  - apply (reach_s _ (broken_down 0 0, [])); [constructor|].
    apply (step_new _ _ [] 1550607665000); [unfold is_long, long_min, long_max; lia|]. vm_compute. reflexivity.
  - eexists. split; [vm_compute; reflexivity|vm_compute; reflexivity].
Qed.
Print Assumptions C99_round_trip_string_refuted.
Example ex_texts :
  date_toString test_lib (T "+07") test_date = Ok (T "Wed Feb 20 03:21:05 +07 2019") /\
  toLocaleString test_lib (T "+07") (broken_down 25200 1550607665) test_date = Ok (T "Feb 20, 2019 03:21:05 AM") /\
  (exists b, toGMTString test_lib 25200 (T "+07") test_date = Ok (T "19 Feb 2019 20:21:05 GMT", b)) /\
  zone_named 25200 (T "+07").
Proof.
  split; [vm_compute; reflexivity|]. split; [vm_compute; reflexivity|]. split; [eexists; vm_compute; reflexivity|].
  split; [unfold zone; lia|]. split; [repeat constructor; discriminate|]. cbn. lia.
Qed.

(** ** C100: SimpleDateFormat *)

(** The patterns made of the directives of [written]. *)
Inductive standard : str -> Prop :=
| std_end : standard []
| std_char c p : c <> 37 -> standard p -> standard (c :: p)
| std_directive k p : In k [37; 89; 109; 100; 72; 77; 83; 121; 70; 84; 97; 98; 73; 112; 90] -> standard p -> standard (37 :: k :: p).
(** Each of them stands for exactly one text. *)
Theorem C100_one_text : forall f z p, shown f -> standard p -> exists! t, written f z p t.
Proof.
  intros f z p [P Y] S. assert (E : exists t, written f z p t).
  { pose proof (month_length_99 (f_year f + 1900) (f_month f)). pose proof (month_name f ltac:(apply P)) as [MN _]. pose proof (day_name f) as [DN _].
    pose proof (clock_ok f P) as CK. destruct (half_hour (f_hour f)) as (h & H1 & H2 & _); [apply P|].
    pose proof (Z.mod_pos_bound (f_year f + 1900) 100 ltac:(lia)).
    destruct P as (M & D & HH & MM & SS).
    induction S as [|c p N S [t IH]|k p K S [t IH]]; [eexists; constructor|eexists; constructor; eauto|].
    cbn [In] in K.
    destruct K as [<-|[<-|[<-|[<-|[<-|[<-|[<-|[<-|[<-|[<-|[<-|[<-|[<-|[<-|[<-|[]]]]]]]]]]]]]]]]; eexists.
    - apply w_percent; eauto.
    - apply w_year; [apply year_ok; lia|eauto].
    - apply w_month; [apply pad2_ok; lia|eauto].
    - apply w_day; [apply pad2_ok; lia|eauto].
    - apply w_hour; [apply pad2_ok; lia|eauto].
    - apply w_minute; [apply pad2_ok; lia|eauto].
    - apply w_second; [apply pad2_ok; lia|eauto].
    - apply w_short_year; [apply pad2_ok; lia|eauto].
    - apply w_date; [apply year_ok; lia|apply pad2_ok; lia|apply pad2_ok; lia|eauto].
    - apply w_clock; eauto.
    - apply w_day_name; eauto.
    - apply w_month_name; eauto.
    - eapply (w_half_hour _ _ _ _ _ h H1 H2); [apply pad2_ok; lia|eauto].
    - apply w_half_day; eauto.
    - apply w_zone; eauto. }
  destruct E as [t W]. exists t. split; [exact W|]. intros u V.
  rewrite <- (expand_written test_lib _ _ _ _ P W). exact (expand_written test_lib _ _ _ _ P V).
Qed.
Print Assumptions C100_one_text.

Definition tz_of (s : sdf) : option str := Some (cstr (timeZone s)).
Lemma str_eqb_refl a : str_eqb a a = true.
Proof. now apply str_eqb_eq. Qed.
Lemma get_put e n v : c_getenv (c_putenv e n v) n = Some v.
Proof. unfold c_putenv. cbn [c_getenv]. now rewrite str_eqb_refl. Qed.
Lemma get_unset e n k : c_getenv (c_unsetenv e n) k = if str_eqb n k then None else c_getenv e k.
Proof.
  unfold c_unsetenv. induction e as [|[a v] e IH]; cbn; [now destruct (str_eqb n k)|].
  destruct (str_eqb a n) eqn:E; cbn [negb].
  - apply str_eqb_eq in E as ->. rewrite IH. destruct (str_eqb n k) eqn:Q; auto.
  - cbn [c_getenv]. rewrite IH. destruct (str_eqb a k) eqn:A; auto. apply str_eqb_eq in A as ->.
    destruct (str_eqb n k) eqn:Q; auto. apply str_eqb_eq in Q as ->. now rewrite str_eqb_refl in E.
Qed.
Lemma format_eq m L s e d f :
  near d -> zone (zone_offset L (tz_of s)) -> proper f -> instant (zone_offset L (tz_of s)) f = timer d ->
  format m L s e d =
  (let* text := strftime L 80 (zone_name L (tz_of s)) (datePattern s) f in
   let* t := trim text in Ok (t, c_unsetenv (c_putenv e (T "TZ") (cstr (timeZone s))) (T "TZ"), f)).
Proof.
  intros N O P I. unfold near in N. unfold format, getTime. rewrite get_put. fold (tz_of s).
  assert (M : smul m 64 (timer d) 1000 = Ok (timer d * 1000)).
  { unfold smul. apply sres_ok. unfold in_s, smin, smax. change (2 ^ (64 - 1)) with 9223372036854775808. lia. }
  rewrite M. cbn [bind]. rewrite Z.quot_mul by lia.
  assert (M2 : sadd m 64 (timer d) 0 = Ok (timer d)).
  { unfold sadd. rewrite Z.add_0_r. apply sres_ok. unfold in_s, smin, smax. change (2 ^ (64 - 1)) with 9223372036854775808. lia. }
  rewrite M2. cbn [bind]. unfold zone in O. rewrite localtime_near by lia.
  replace (broken_down (zone_offset L (tz_of s)) (timer d)) with f; [reflexivity|].
  rewrite <- I. symmetry. apply broken_down_proper. exact P.
Qed.

(** The text is the date in the formatter's zone as the pattern says, without
    blanks at the ends, if it has less than 80 characters. *)
Theorem C100_format_partial : forall m L s e d f t,
  near d -> zone (zone_offset L (tz_of s)) -> proper f -> instant (zone_offset L (tz_of s)) f = timer d ->
  ~ In 0 (datePattern s) -> written f (zone_name L (tz_of s)) (datePattern s) t -> ~ In 0 t -> zlen t < 80 ->
  exists r e', format m L s e d = Ok (r, e', f) /\ trimmed t r.
Proof.
  intros m L s e d f t N O P I NP W NT LT. rewrite (format_eq m L s e d f N O P I).
  assert (NN : forall l, ~ In 0 l -> Forall (fun c => c <> 0) l).
  { clear. induction l as [|c l IH]; intros H; constructor; [intros ->; apply H; left; reflexivity|apply IH; intros X; apply H; right; exact X]. }
  unfold strftime. rewrite (cstr_id (datePattern s)) by auto. rewrite (expand_written L _ _ _ _ P W).
  destruct (Z.ltb_spec (zlen t) 80); [|lia]. cbn [bind]. rewrite cstr_id by auto.
  destruct (C40_trim t) as (r & -> & TR). cbn [bind]. do 2 eexists. split; [reflexivity|exact TR].
Qed.
Print Assumptions C100_format_partial.
(** A longer text is lost: what is returned is unspecified. *)
Theorem C100_format_refuted : forall m L s e d f t,
  near d -> zone (zone_offset L (tz_of s)) -> proper f -> instant (zone_offset L (tz_of s)) f = timer d ->
  ~ In 0 (datePattern s) -> written f (zone_name L (tz_of s)) (datePattern s) t -> 80 <= zlen t ->
  format m L s e d = UB Uninitialised.
Proof.
  intros m L s e d f t N O P I NP W LT. rewrite (format_eq m L s e d f N O P I).
  assert (NN : forall l, ~ In 0 l -> Forall (fun c => c <> 0) l).
  { clear. induction l as [|c l IH]; intros H; constructor; [intros ->; apply H; left; reflexivity|apply IH; intros X; apply H; right; exact X]. }
  unfold strftime. rewrite (cstr_id (datePattern s)) by auto. rewrite (expand_written L _ _ _ _ P W).
  destruct (Z.ltb_spec (zlen t) 80); [lia|]. reflexivity.
Qed.
Print Assumptions C100_format_refuted.
(** A pattern in the notation of Java, such as yyyy-MM-dd, has no directives:
    it is returned as it is, for every date. *)
Theorem C100_java_pattern_refuted : forall m L s e d,
  near d -> zone (zone_offset L (tz_of s)) -> datePattern s = T "yyyy-MM-dd HH:mm:ss" ->
  exists e' f, format m L s e d = Ok (T "yyyy-MM-dd HH:mm:ss", e', f).
Proof.
  intros m L s e d N O E.
  destruct (broken_down_ok (zone_offset L (tz_of s)) (timer d)) as [P I].
  rewrite (format_eq m L s e d _ N O P I), E. clear P I. generalize (broken_down (zone_offset L (tz_of s)) (timer d)). intros f.
  assert (X : strftime L 80 (zone_name L (tz_of s)) (T "yyyy-MM-dd HH:mm:ss") f = Ok (T "yyyy-MM-dd HH:mm:ss")) by reflexivity.
  rewrite X. cbn [bind]. assert (X2 : trim (T "yyyy-MM-dd HH:mm:ss") = Ok (T "yyyy-MM-dd HH:mm:ss")) by reflexivity.
  rewrite X2. cbn [bind]. do 2 eexists. reflexivity.
Qed.
Print Assumptions C100_java_pattern_refuted.

(** Formatting leaves the environment as it was, except ... *)
Theorem C100_environment_partial : forall m L s e d r e' f name, format m L s e d = Ok (r, e', f) ->
  name <> T "TZ" -> c_getenv e' name = c_getenv e name.
Proof.
  intros m L s e d r e' f name F N. unfold format in F.
  destruct (getTime m d) as [ms| | |]; try discriminate. cbn [bind] in F.
  destruct (sadd m 64 (Z.quot ms 1000) 0) as [ts| | |]; try discriminate. cbn [bind] in F.
  destruct (localtime _ ts); [|discriminate]. destruct (strftime _ _ _ _ _) as [x| | |]; try discriminate. cbn [bind] in F.
  destruct (trim x); try discriminate. cbn [bind] in F. injection F as _ <- _.
  rewrite get_unset. unfold c_putenv. cbn [c_getenv]. rewrite get_unset.
  change [84; 90] with (T "TZ"). destruct (str_eqb (T "TZ") name) eqn:E; [apply str_eqb_eq in E; congruence|reflexivity].
Qed.
Print Assumptions C100_environment_partial.
(** ... that the variable TZ, which the user may have set to their zone, is gone. *)
Theorem C100_environment_refuted : forall m L s e d r e' f, format m L s e d = Ok (r, e', f) ->
  c_getenv e' (T "TZ") = None.
Proof.
  intros m L s e d r e' f F. unfold format in F.
  destruct (getTime m d) as [ms| | |]; try discriminate. cbn [bind] in F.
  destruct (sadd m 64 (Z.quot ms 1000) 0) as [ts| | |]; try discriminate. cbn [bind] in F.
  destruct (localtime _ ts); [|discriminate]. destruct (strftime _ _ _ _ _) as [x| | |]; try discriminate. cbn [bind] in F.
  destruct (trim x); try discriminate. cbn [bind] in F. injection F as _ <- _.
  rewrite get_unset, str_eqb_refl. reflexivity.
Qed.
Print Assumptions C100_environment_refuted.
(** The getters of every other date show the formatted one afterwards. *)
Theorem C100_getters_refuted : forall m L s e d r e' b other, format m L s e d = Ok (r, e', b) -> near d ->
  timer other <> timer d -> instant (zone_offset L (tz_of s)) (get_fields b other) <> timer other.
Proof.
  intros m L s e d r e' b other F N NE. unfold format, getTime in F. rewrite get_put in F. fold (tz_of s) in F. unfold near in N.
  assert (M : smul m 64 (timer d) 1000 = Ok (timer d * 1000)).
  { unfold smul. apply sres_ok. unfold in_s, smin, smax. change (2 ^ (64 - 1)) with 9223372036854775808. lia. }
  rewrite M in F. cbn [bind] in F. rewrite Z.quot_mul in F by lia.
  assert (M2 : sadd m 64 (timer d) 0 = Ok (timer d)).
  { unfold sadd. rewrite Z.add_0_r. apply sres_ok. unfold in_s, smin, smax. change (2 ^ (64 - 1)) with 9223372036854775808. lia. }
  rewrite M2 in F. cbn [bind] in F. unfold localtime in F.
  destruct (year_fits _) in F; [|discriminate]. destruct (strftime _ _ _ _ _) as [x| | |]; try discriminate. cbn [bind] in F.
  destruct (trim x); try discriminate. cbn [bind] in F. injection F as _ _ <-.
  unfold get_fields. rewrite (proj2 (broken_down_ok _ _)). congruence.
Qed.
Print Assumptions C100_getters_refuted.

(** ** TimeZone and getenv *)

(** The zone just asked for has the id asked for; a formatter keeps the zone
    it was given, whatever zones are asked for later; without one it is UTC. *)
Theorem C100_zone : forall shared id later p,
  getID (snd (getTimeZone shared id)) (fst (getTimeZone shared id)) = id /\
  timeZone (setTimeZone (sdf_new p) (snd (getTimeZone shared id)) (fst (getTimeZone shared id))) = id /\
  (forall o s, timeZone (setTimeZone s (snd (getTimeZone shared later)) (Own o)) = o) /\
  timeZone (sdf_new p) = T "UTC" /\ datePattern (setTimeZone (sdf_new p) shared (Own id)) = p.
Proof. intros; repeat split. Qed.
Print Assumptions C100_zone.
(** A zone held by reference changes when another one is asked for. *)
Theorem C100_zone_refuted : forall shared a b, a <> b ->
  let '(za, s1) := getTimeZone shared a in
  let '(zb, s2) := getTimeZone s1 b in
  getID s2 zb = b /\ getID s2 za <> a.
Proof. intros shared a b N. cbn. split; congruence. Qed.
Print Assumptions C100_zone_refuted.

Theorem C100_getenv_partial : forall e name v, ~ In 0 name -> c_getenv e name = Some v -> System_getenv e name = Ok v.
Proof.
  intros e name v N E. unfold System_getenv. rewrite cstr_id; [now rewrite E|].
  clear E. induction name as [|c l IH]; constructor; [intros ->; apply N; left; reflexivity|apply IH; intros X; apply N; right; exact X].
Qed.
Print Assumptions C100_getenv_partial.
(** For a variable that is not set a String is made from a null pointer. *)
Theorem C100_getenv_refuted : forall e name, ~ In 0 name -> c_getenv e name = None -> System_getenv e name = UB NullDeref.
Proof.
  intros e name N E. unfold System_getenv. rewrite cstr_id; [now rewrite E|].
  clear E. induction name as [|c l IH]; constructor; [intros ->; apply N; left; reflexivity|apply IH; intros X; apply N; right; exact X].
Qed.
Print Assumptions C100_getenv_refuted.

Example ex_format : exists e' f,
  format HW test_lib (sdf_new (T " %Y-%m-%d %H:%M:%S %a %Z ")) [(T "TZ", T "Asia/Bangkok"); (T "HOME", T "/root")] test_date
  = Ok (T "2019-02-20 03:21:05 Wed +07", e', f) /\ e' = [(T "HOME", T "/root")].
Proof. do 2 eexists. split; [vm_compute; reflexivity|vm_compute; reflexivity]. Qed.
Example ex_standard : standard (T "%Y-%m-%d %H:%M:%S") /\ near test_date.
Proof.
  split; [|unfold near; cbn; lia].
  repeat (first [apply std_directive; [cbv; tauto|] | apply std_char; [cbv; discriminate|]]). constructor.
Qed.
