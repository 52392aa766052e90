(** * C60, continued: zone names and two-digit years *)

From Coq Require Import ZArith List Lia Bool String.
From Verif Require Import Base Bits CppText TextSpec TextLemmas StringModel StringProofs DateSpec DateZoneSpec DateModel DateProofs DateParseProofs DateParseProofs2.
Import ListNotations.
Open Scope string_scope.
Open Scope list_scope.
Open Scope Z_scope.

Lemma american_lookup m w west : small w -> american_zone w west -> letters w /\ w <> [] /\ lookup m w (rev wordTable) = Ok (Some (10000 + west)) /\ 200 <= west <= 500.
Proof.
  intros SW (name & N & V). assert (C : forallb (fun d => lower_b (fst d) && (action_is ISO (fst d) (10000 + snd d) && action_is HW (fst d) (10000 + snd d)) && ((200 <=? snd d) && (snd d <=? 500)) && negb (match fst d with [] => true | _ => false end)) american = true) by (vm_compute; reflexivity).
  rewrite forallb_forall in C. specialize (C _ N). cbn [fst snd] in C. apply andb_prop in C as [C C4]. apply andb_prop in C as [C C3]. apply andb_prop in C as [C0 C]. apply andb_prop in C as [C1 C2].
  destruct (word_of m name w (10000 + west) C0 C1 C2 SW V) as (P & Q & R). split; [exact P|]. split; [intros ->; destruct name; [discriminate|discriminate Q]|]. split; [exact R|lia].
Qed.
(** "day month year hour:minute:second EST" (or EDT, CST, ...): that many
    hours behind Greenwich. *)
Theorem C60_american_zone m off now f dt mt yt ht it st zt west :
  -86400 <= off <= 86400 -> sane_now now -> common f ->
  numeral 10 dt (f_day f) -> month_word (f_month f) mt -> numeral 10 yt (f_year f + 1900) ->
  numeral 10 ht (f_hour f) -> numeral 10 it (f_minute f) -> numeral 10 st (f_second f) -> american_zone zt west ->
  let text := (dt ++ T " " ++ mt ++ T " " ++ yt ++ T " " ++ ht ++ T ":" ++ it ++ T ":" ++ st) ++ T " " ++ zt in
  small text -> parse m off now text = Ok (1000 * instant (-60 * west) f).
Proof.
  intros O N C DT MT YT HT IT ST ZT text SM. unfold text in *. clear text. set (s := (dt ++ _) ++ _) in *.
  assert (ES : s = dt ++ 32 :: mt ++ 32 :: yt ++ 32 :: ht ++ 58 :: it ++ 58 :: st ++ 32 :: zt ++ []).
  { unfold s. rewrite <- !app_assoc, app_nil_r. reflexivity. }
  assert (SMT : small mt) by (apply (small_in (dt ++ [32]) mt (32 :: yt ++ 32 :: ht ++ 58 :: it ++ 58 :: st ++ 32 :: zt ++ []) s); [rewrite <- app_assoc; exact ES|exact SM]).
  assert (SZ : small zt).
  { apply (small_in (dt ++ 32 :: mt ++ 32 :: yt ++ 32 :: ht ++ 58 :: it ++ 58 :: st ++ [32]) zt [] s); [|exact SM].
    rewrite ES. repeat (rewrite <- app_assoc; cbn [app]). reflexivity. }
  destruct (american_lookup m zt west SZ ZT) as (Z1 & Z2 & Z3 & Z4).
  pose proof C as ((M & _) & _).
  assert (P : plain s) by (rewrite ES; plain_text; apply letters_plain; exact Z1).
  destruct (date_steps m dt mt yt ht it st (32 :: zt ++ []) f) as (pre & SP); eauto.
  eapply parse_steps with (p := filled f west 0); [|exact SM|exact P| |].
  - rewrite ES. apply numeral_nil in DT. destruct dt; [congruence|discriminate].
  - rewrite ES. eapply steps_trans; [exact SP|]. eapply steps_trans; [apply steps_blank|].
    apply (steps_word m _ zt [] _ _ (10000 + west)); [auto|exact Logic.I|]. unfold word_action.
    destruct (Z.eqb_spec (10000 + west) 0); [lia|]. destruct (Z.eqb_spec (10000 + west) 1); [lia|]. destruct (Z.eqb_spec (10000 + west) 14); [lia|]. destruct (Z.leb_spec (10000 + west) 13); [lia|].
    replace (10000 + west - 10000) with west by lia. reflexivity.
  - rewrite finish_ok by (assumption || lia). destruct (Z.eqb_spec west (-1)); [lia|]. f_equal. rewrite (instant_off (-60 * west) f). lia.
Qed.
Print Assumptions C60_american_zone.

Definition filled_year (f : fields) (yy : Z) : pstate :=
  {| p_year := yy; p_month := f_month f; p_day := f_day f; p_hour := f_hour f; p_minute := f_minute f; p_second := f_second f; p_zone := -1; p_prev := 0 |}.
Lemma century m off now yy year present : -86400 <= off <= 86400 -> sane_now now -> f_year (broken_down off now) + 1900 = present -> 100 <= year <= 290000000 -> 80 <= present ->
  two_digit_year present yy year -> default_century m off now yy = Ok year.
Proof.
  intros O N E Y P (T1 & T2 & T3). unfold default_century. destruct (Z.ltb_spec yy 100); [|lia]. rewrite localtime_near by (unfold sane_now in N; lia).
  unfold sadd, ssub. rewrite sres32 by lia. cbn [bind]. rewrite sres32 by lia. cbn [bind]. rewrite E. rewrite Z.quot_div_nonneg by lia.
  pose proof (Z.div_mod (present - 80) 100 ltac:(lia)) as D1. pose proof (Z.mod_pos_bound (present - 80) 100 ltac:(lia)) as D2. pose proof (Z.div_mod year 100 ltac:(lia)) as D3. rewrite T3 in D3.
  rewrite sres32 by lia. cbn [bind]. destruct (Z.ltb_spec (yy + (present - 80) / 100 * 100) (present - 80)); [rewrite sres32 by lia|]; f_equal; lia.
Qed.
Lemma number_short m p n c e : 0 <= n <= 99 -> p_prev p = 0 -> p_hour p = -1 -> p_minute p = -1 -> 0 <= p_month p -> 0 <= p_day p -> p_year p = int_min -> c = 32 -> number m p n c e = Ok (w_year p n).
Proof.
  intros N P H M MO D Y C. subst c. destruct (Z_le_dec 70 n) as [L|L]; [apply number_year; auto; rewrite P; lia|].
  unfold number. rewrite P, H, M, Y, Z.eqb_refl. destruct (Z.leb_spec 70 n); [lia|]. cbn -[Z.leb Z.ltb Z.eqb]. change (32 =? 58) with false. change (32 =? 47) with false. change (32 <? 32) with false. rewrite !andb_false_r. cbn -[Z.leb Z.ltb Z.eqb].
  change (0 <=? -1) with false. cbn -[Z.leb Z.ltb Z.eqb]. destruct (Z.ltb_spec (p_day p) 0); [lia|]. destruct (Z.leb_spec 0 (p_month p)); [|lia]. destruct (Z.leb_spec 0 (p_day p)); [|lia]. reflexivity.
Qed.
(** "day month yy hour:minute:second": the year within 80 years before and 19
    years after the present one. *)
Theorem C60_two_digit_year m off now f yy dt mt yt ht it st :
  -86400 <= off <= 86400 -> sane_now now -> common f ->
  let present := f_year (broken_down off now) + 1900 in
  80 <= present -> two_digit_year present yy (f_year f + 1900) ->
  numeral 10 dt (f_day f) -> month_word (f_month f) mt -> numeral 10 yt yy ->
  numeral 10 ht (f_hour f) -> numeral 10 it (f_minute f) -> numeral 10 st (f_second f) ->
  let text := dt ++ T " " ++ mt ++ T " " ++ yt ++ T " " ++ ht ++ T ":" ++ it ++ T ":" ++ st in
  small text -> parse m off now text = Ok (1000 * instant off f).
Proof.
  intros O N C present PR TY DT MT YT HT IT ST text SM. unfold text in *. clear text. set (s := dt ++ _) in *.
  assert (SMT : small mt).
  { unfold s in SM. change (T " ") with [32] in SM. rewrite (app_assoc dt) in SM. now apply small_part in SM. }
  assert (ES : s = dt ++ 32 :: mt ++ 32 :: yt ++ 32 :: ht ++ 58 :: it ++ 58 :: st ++ []) by (rewrite app_nil_r; reflexivity).
  pose proof C as ((M & D & _) & Y). pose proof (month_length_bound (f_year f + 1900) (f_month f)).
  assert (P : plain s).
  { rewrite ES. repeat (apply plain_cons; [lia|] || apply plain_app || apply plain_nil); eauto using numeral_plain, month_plain, plain_nil. }
  pose proof TY as (T1 & _).
  set (p3 := {| p_year := yy; p_month := f_month f; p_day := f_day f; p_hour := -1; p_minute := -1; p_second := -1; p_zone := -1; p_prev := 0 |}).
  eapply parse_steps with (p := filled_year f yy); [|exact SM|exact P| |].
  - unfold s. apply numeral_nil in DT. destruct dt; [congruence|discriminate].
  - rewrite ES.
    eapply steps_trans; [apply (steps_num m [] dt (f_day f)) with (p' := w_day p_init (f_day f)); [exact DT|unfold int_max; lia|cbn; lia|]|].
    { intros c0 C0. apply number_day; cbn; auto; lia. }
    eapply steps_trans; [apply steps_blank|].
    eapply steps_trans; [apply (steps_word m _ mt) with (a := f_month f + 2) (p' := w_month (w_day p_init (f_day f)) (f_month f)); [now apply month_lookup|reflexivity|]|].
    { apply action_month; [exact M|reflexivity]. }
    eapply steps_trans; [apply steps_blank|].
    eapply steps_trans; [apply (steps_num m _ yt yy) with (p' := p3); [exact YT|unfold int_max; lia|cbn; lia|]|].
    { intros c0 C0. etransitivity; [apply number_short; cbn; auto; lia|reflexivity]. }
    eapply steps_trans; [apply steps_blank|].
    eapply steps_trans; [apply (steps_clock m _ ht it st [] p3 f); auto; apply C|].
    intros k R. exists k. split; [exact R|reflexivity].
  - transitivity (finish m off now (filled f (-1) 0)); [|rewrite finish_ok by (assumption || lia); reflexivity].
    unfold finish, filled, filled_year. cbn [p_year p_month p_day p_hour p_minute p_second p_zone]. rewrite (century m off now yy (f_year f + 1900) present O N eq_refl Y PR TY).
    unfold default_century at 1. destruct (Z.ltb_spec (f_year f + 1900) 100); [lia|]. unfold int_min. destruct (Z.eqb_spec yy (-2147483648)); [lia|]. destruct (Z.eqb_spec (f_year f + 1900) (-2147483648)); [lia|]. reflexivity.
Qed.
Print Assumptions C60_two_digit_year.

(** 12 August 95, 13:30:05, read in November 2023 *)
Definition sample : fields := {| f_year := 95; f_month := 7; f_day := 12; f_hour := 13; f_minute := 30; f_second := 5 |}.
Example sample_edt : american_zone (T "Edt") 240.
Proof. exists (T "edt"). split; [cbn; tauto|]. repeat constructor; unfold letter_of; lia. Qed.
Example sample_year : two_digit_year (f_year (broken_down 0 1700000000) + 1900) 95 (f_year sample + 1900).
Proof. vm_compute. repeat split; discriminate. Qed.
Example sample_texts : parse HW 0 1700000000 (T "12 Aug 95 13:30:05") = Ok (1000 * instant 0 sample) /\ parse HW 25200 1700000000 (T "12 Aug 1995 13:30:05 EDT") = Ok (1000 * (instant 0 sample + 4 * 3600)).
Proof. split; vm_compute; reflexivity. Qed.
