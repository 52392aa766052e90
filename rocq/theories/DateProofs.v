(** The calendar: the civil date of every day, and uniqueness. *)

From Coq Require Import ZArith List Lia Bool.
From Verif Require Import Base Bits CppText DateSpec DateModel.
Import ListNotations.
Open Scope Z_scope.

Ltac dm := Z.to_euclidean_division_equations; lia.

(** ** The specification is sensible: consecutive years *)
Lemma mod_step a k : 1 < k -> (a + 1) / k = a / k + (if (a + 1) mod k =? 0 then 1 else 0).
Proof.
  intros K. pose proof (Z.div_mod a k ltac:(lia)). pose proof (Z.mod_pos_bound a k ltac:(lia)).
  destruct (Z.eqb_spec ((a + 1) mod k) 0) as [E|E].
  - pose proof (Z.div_mod (a + 1) k ltac:(lia)). nia.
  - pose proof (Z.div_mod (a + 1) k ltac:(lia)). pose proof (Z.mod_pos_bound (a + 1) k ltac:(lia)). nia.
Qed.
Lemma mod_mult y a b : 0 < a -> 0 < b -> y mod (a * b) = 0 -> y mod a = 0.
Proof.
  intros A B H. apply Z.mod_divide; [lia|]. apply Z.mod_divide in H; [|lia]. destruct H as [k ->].
  exists (k * b). lia.
Qed.
Lemma year_step y : days_before_year (y + 1) = days_before_year y + year_length y.
Proof.
  unfold days_before_year, year_length, leap.
  replace (y + 1 - 1) with (y - 1 + 1) by lia.
  rewrite !(mod_step (y - 1)) by lia. replace (y - 1 + 1) with y by lia.
  pose proof (mod_mult y 4 25 ltac:(lia) ltac:(lia)) as P. pose proof (mod_mult y 100 4 ltac:(lia) ltac:(lia)) as Q.
  cbn [Z.mul Pos.mul Pos.add Pos.succ Pos.add_carry] in P, Q.
  destruct (Z.eqb_spec (y mod 4) 0), (Z.eqb_spec (y mod 100) 0), (Z.eqb_spec (y mod 400) 0); cbn [andb orb negb]; try lia; exfalso; auto.
Qed.
Lemma year_sum y : days_before_month y 12 = year_length y.
Proof.
  unfold days_before_month, year_length. change (Z.to_nat 12) with 12%nat. cbn [days_before_month_nat].
  unfold month_length. destruct (leap y); reflexivity.
Qed.
Lemma year_length_pos y : 365 <= year_length y <= 366.
Proof. unfold year_length. destruct (leap y); lia. Qed.
Lemma month_length_pos y m : 28 <= month_length y m <= 31.
Proof. unfold month_length. destruct (leap y), (m =? 1), ((m =? 3) || (m =? 5) || (m =? 8) || (m =? 10)); lia. Qed.
Lemma month_step y m : 0 <= m -> days_before_month y (m + 1) = days_before_month y m + month_length y m.
Proof.
  intros H. unfold days_before_month. replace (Z.to_nat (m + 1)) with (S (Z.to_nat m)) by lia.
  cbn [days_before_month_nat]. now rewrite Z2Nat.id by lia.
Qed.
Lemma month_mono y m k : 0 <= m -> days_before_month y m + 28 * Z.of_nat k <= days_before_month y (m + Z.of_nat k).
Proof.
  intros H. induction k as [|k IH]; [replace (m + Z.of_nat 0) with m by lia; lia|].
  replace (m + Z.of_nat (S k)) with (m + Z.of_nat k + 1) by lia. rewrite month_step by lia.
  pose proof (month_length_pos y (m + Z.of_nat k)). lia.
Qed.
Lemma year_mono y k : days_before_year y + 365 * Z.of_nat k <= days_before_year (y + Z.of_nat k).
Proof.
  induction k as [|k IH]; [replace (y + Z.of_nat 0) with y by lia; lia|].
  replace (y + Z.of_nat (S k)) with (y + Z.of_nat k + 1) by lia. rewrite year_step.
  pose proof (year_length_pos (y + Z.of_nat k)). lia.
Qed.

(** ** Uniqueness *)
Lemma day_bounds y m d : 0 <= m <= 11 -> 1 <= d <= month_length y m ->
  days_before_year y <= epoch_day y m d + days_before_year 1970 < days_before_year (y + 1).
Proof.
  intros M D. unfold epoch_day. rewrite year_step.
  pose proof (month_mono y 0 (Z.to_nat m)) as A. rewrite Z2Nat.id in A by lia.
  change (days_before_month y 0) with 0 in A. cbn [Z.add] in A.
  pose proof (month_mono y (m + 1) (Z.to_nat (11 - m))) as B. rewrite Z2Nat.id in B by lia.
  replace (m + 1 + (11 - m)) with 12 in B by lia. rewrite year_sum, month_step in B by lia.
  destruct m; lia.
Qed.
Lemma civil_unique y m d y' m' d' : 0 <= m <= 11 -> 1 <= d <= month_length y m -> 0 <= m' <= 11 -> 1 <= d' <= month_length y' m' ->
  epoch_day y m d = epoch_day y' m' d' -> y = y' /\ m = m' /\ d = d'.
Proof.
  intros M D M' D' E. pose proof (day_bounds y m d M D). pose proof (day_bounds y' m' d' M' D').
  assert (Y : y = y').
  { destruct (Z.lt_trichotomy y y') as [L|[L|L]]; [exfalso|exact L|exfalso].
    - pose proof (year_mono (y + 1) (Z.to_nat (y' - y - 1))) as A. rewrite Z2Nat.id in A by lia.
      replace (y + 1 + (y' - y - 1)) with y' in A by lia. lia.
    - pose proof (year_mono (y' + 1) (Z.to_nat (y - y' - 1))) as A. rewrite Z2Nat.id in A by lia.
      replace (y' + 1 + (y - y' - 1)) with y in A by lia. lia. }
  subst y'. split; [reflexivity|]. unfold epoch_day in E.
  assert (m = m').
  { destruct (Z.lt_trichotomy m m') as [L|[L|L]]; [exfalso|exact L|exfalso].
    - pose proof (month_mono y (m + 1) (Z.to_nat (m' - m - 1))) as A. rewrite Z2Nat.id in A by lia.
      replace (m + 1 + (m' - m - 1)) with m' in A by lia. rewrite month_step in A by lia. lia.
    - pose proof (month_mono y (m' + 1) (Z.to_nat (m - m' - 1))) as A. rewrite Z2Nat.id in A by lia.
      replace (m' + 1 + (m - m' - 1)) with m in A by lia. rewrite month_step in A by lia. lia. }
  subst m'. split; [reflexivity|lia].
Qed.

(** ** The algorithm *)

Definition civil_good (z : Z) (c : Z * Z * Z) : Prop :=
  let '(y, m, d) := c in 0 <= m <= 11 /\ 1 <= d <= month_length y m /\ epoch_day y m d = z.
Definition civil_goodb (z : Z) (c : Z * Z * Z) : bool :=
  let '(y, m, d) := c in
  (0 <=? m) && (m <=? 11) && (1 <=? d) && (d <=? month_length y m) && (epoch_day y m d =? z).
Lemma civil_goodb_ok z c : civil_goodb z c = true -> civil_good z c.
Proof.
  destruct c as [[y m] d]. unfold civil_goodb, civil_good. rewrite !andb_true_iff, !Z.leb_le, Z.eqb_eq. lia.
Qed.
(** all days of one 400-year cycle *)
Fixpoint check1 (n : nat) (z : Z) : bool :=
  match n with O => true | S k => civil_goodb z (civil z) && check1 k (z + 1) end.
Fixpoint check2 (n : nat) (z : Z) : bool :=
  match n with O => true | S k => check1 400 z && check2 k (z + 400) end.
Lemma check1_ok n : forall z, check1 n z = true -> forall i, z <= i < z + Z.of_nat n -> civil_good i (civil i).
Proof.
  induction n as [|n IH]; intros z C i H; [lia|]. cbn [check1] in C. apply andb_prop in C as [A B].
  destruct (Z.eq_dec i z) as [->|N]; [now apply civil_goodb_ok|]. apply (IH (z + 1)); [exact B|lia].
Qed.
Lemma check2_ok n : forall z, check2 n z = true -> forall i, z <= i < z + 400 * Z.of_nat n -> civil_good i (civil i).
Proof.
  induction n as [|n IH]; intros z C i H; [lia|]. cbn [check2] in C. apply andb_prop in C as [A B].
  destruct (Z_lt_ge_dec i (z + 400)) as [L|L]; [|apply (IH (z + 400)); [exact B|lia]].
  apply (check1_ok 400 z A). lia.
Qed.
Lemma cycle z : -719468 <= z < -719468 + 146097 -> civil_good z (civil z).
Proof. intros H. apply (check2_ok 366 (-719468)); [vm_compute; reflexivity|lia]. Qed.

(** 400-year periodicity *)
Lemma leap_cycle y e : leap (y + 400 * e) = leap y.
Proof.
  unfold leap. 
  replace (y + 400 * e) with (y + (100 * e) * 4) by lia. rewrite Z.mod_add by lia.
  replace (y + 100 * e * 4) with (y + (4 * e) * 100) by lia. rewrite Z.mod_add by lia.
  replace (y + 4 * e * 100) with (y + e * 400) by lia. rewrite Z.mod_add by lia. reflexivity.
Qed.
Lemma month_length_cycle y e m : month_length (y + 400 * e) m = month_length y m.
Proof. unfold month_length. now rewrite leap_cycle. Qed.
Lemma month_cycle y e m : days_before_month (y + 400 * e) m = days_before_month y m.
Proof.
  unfold days_before_month. induction (Z.to_nat m) as [|k IH]; [reflexivity|]. cbn [days_before_month_nat].
  now rewrite IH, month_length_cycle.
Qed.
Lemma year_cycle y e : days_before_year (y + 400 * e) = days_before_year y + 146097 * e.
Proof.
  unfold days_before_year. replace (y + 400 * e - 1) with (y - 1 + 400 * e) by lia. set (x := y - 1).
  replace (x + 400 * e) with (x + (100 * e) * 4) at 2 by lia. rewrite Z.div_add by lia.
  replace (x + 400 * e) with (x + (4 * e) * 100) at 2 by lia. rewrite Z.div_add by lia.
  replace (x + 400 * e) with (x + e * 400) at 2 by lia. rewrite Z.div_add by lia. lia.
Qed.
Lemma epoch_cycle y m d e : epoch_day (y + 400 * e) m d = epoch_day y m d + 146097 * e.
Proof. unfold epoch_day. rewrite year_cycle, month_cycle. lia. Qed.
Lemma civil_cycle z e : civil (z + 146097 * e) = (let '(y, m, d) := civil z in (y + 400 * e, m, d)).
Proof.
  unfold civil. replace (z + 146097 * e + 719468) with (z + 719468 + e * 146097) by lia.
  rewrite Z.mod_add, Z.div_add by lia. cbv zeta. f_equal. f_equal. lia.
Qed.
Theorem civil_ok z : civil_good z (civil z).
Proof.
  set (e := (z + 719468) / 146097). set (r := (z + 719468) mod 146097 - 719468).
  assert (E : z = r + 146097 * e) by (unfold r, e; pose proof (Z.div_mod (z + 719468) 146097); lia).
  assert (R : -719468 <= r < -719468 + 146097).
  { unfold r. pose proof (Z.mod_pos_bound (z + 719468) 146097). lia. }
  rewrite E, civil_cycle. pose proof (cycle r R) as C. destruct (civil r) as [[y m] d].
  destruct C as (A & B & C). split; [exact A|]. rewrite month_length_cycle, epoch_cycle. split; [exact B|lia].
Qed.

(** ** Broken-down times *)
Theorem broken_down_ok off t : proper (broken_down off t) /\ instant off (broken_down off t) = t.
Proof.
  unfold broken_down. pose proof (civil_ok ((t + off) / 86400)) as C.
  destruct (civil ((t + off) / 86400)) as [[y m] d]. destruct C as (A & B & C).
  unfold proper, instant. cbn [f_year f_month f_day f_hour f_minute f_second].
  pose proof (Z.mod_pos_bound (t + off) 86400 ltac:(lia)) as M.
  pose proof (Z.div_mod (t + off) 86400 ltac:(lia)) as D.
  set (s := (t + off) mod 86400) in *. set (q := (t + off) / 86400) in *.
  replace (y - 1900 + 1900) with y by lia.
  rewrite (Z.div_small m 12), (Z.mod_small m 12), Z.add_0_r by lia.
  split; [|rewrite C]; clear - A B M D; clearbody s q.
  - repeat split; try lia; clear - M; dm.
  - assert (s / 3600 * 3600 + s / 60 mod 60 * 60 + s mod 60 = s) by (clear - M; dm). lia.
Qed.
Lemma proper_unique off f g : proper f -> proper g -> instant off f = instant off g -> f = g.
Proof.
  destruct f as [y m d h i s], g as [y' m' d' h' i' s']. unfold proper, instant.
  cbn [f_year f_month f_day f_hour f_minute f_second]. intros (A & B & C & D & E) (A' & B' & C' & D' & E').
  rewrite (Z.div_small m 12), (Z.mod_small m 12), (Z.div_small m' 12), (Z.mod_small m' 12), !Z.add_0_r by lia. intros H.
  assert (K : epoch_day (y + 1900) m d = epoch_day (y' + 1900) m' d') by lia.
  destruct (civil_unique _ _ _ _ _ _ A B A' B' K) as (Y & -> & ->).
  assert (y = y') by lia. subst. assert (h = h') by lia. assert (i = i') by lia. assert (s = s') by lia. congruence.
Qed.
Lemma broken_down_proper off f : proper f -> broken_down off (instant off f) = f.
Proof.
  intros P. destruct (broken_down_ok off (instant off f)) as [Q E]. now apply (proper_unique off).
Qed.

(** ** Years *)
Lemma year_day_bounds y m d : 0 <= m <= 11 -> 1 <= d <= month_length y m ->
  365 * (y - 1970) - 2000 - (if y <? 1970 then (1970 - y) else 0) <= epoch_day y m d
  <= 365 * (y - 1970) + 2000 + (if y <? 1970 then 0 else (y - 1970)).
Proof.
  intros M D. pose proof (day_bounds y m d M D) as [L U].
  rewrite year_step in U. pose proof (year_length_pos y).
  unfold days_before_year in *. change ((1970 - 1) / 4) with 492 in *. change ((1970 - 1) / 100) with 19 in *.
  change ((1970 - 1) / 400) with 4 in *.
  assert (Q : exists q, (y - 1) / 4 - (y - 1) / 100 + (y - 1) / 400 = q /\
     (0 <= y - 1970 -> 467 <= q <= y - 1970 + 600) /\ (y - 1970 < 0 -> y - 1970 - 600 <= q <= 500)).
  { eexists. split; [reflexivity|]. clear. dm. }
  destruct Q as (q & Q & Q1 & Q2).
  destruct (Z.ltb_spec y 1970); lia.
Qed.
(** Every instant within 6 * 10^16 seconds has a year that fits an int. *)
Lemma fits_near off t : -86400 <= off <= 86400 -> - 60000000000000000 <= t <= 60000000000000000 -> year_fits (broken_down off t) = true.
Proof.
  intros O H. unfold broken_down. pose proof (civil_ok ((t + off) / 86400)) as C.
  destruct (civil ((t + off) / 86400)) as [[y m] d]. destruct C as (A & B & C).
  pose proof (year_day_bounds y m d A B) as Y. rewrite C in Y.
  assert (R : - 700000000000 <= (t + off) / 86400 <= 700000000000) by (clear - O H; dm).
  unfold year_fits. cbn [f_year]. apply andb_true_intro. unfold int_min, int_max.
  split; apply Z.leb_le; destruct (Z.ltb_spec y 1970); lia.
Qed.
(** Conversely a year that fits bounds the instant. *)
Lemma fits_bound off t : -86400 <= off <= 86400 -> year_fits (broken_down off t) = true ->
  - 70000000000000000 <= t <= 70000000000000000.
Proof.
  intros O. unfold broken_down. pose proof (civil_ok ((t + off) / 86400)) as C.
  destruct (civil ((t + off) / 86400)) as [[y m] d]. destruct C as (A & B & C).
  pose proof (year_day_bounds y m d A B) as Y. rewrite C in Y.
  unfold year_fits. cbn [f_year]. rewrite andb_true_iff, !Z.leb_le. unfold int_min, int_max. intros [L U].
  assert (R : - 790000000000 <= (t + off) / 86400 <= 790000000000) by (destruct (Z.ltb_spec y 1970); lia).
  clear - O R. pose proof (Z.div_mod (t + off) 86400). pose proof (Z.mod_pos_bound (t + off) 86400). lia.
Qed.

(** ** localtime and mktime *)
Lemma mktime_localtime off t b : localtime off t = Some b -> mktime off b = (t, b).
Proof.
  unfold localtime, mktime. destruct (year_fits (broken_down off t)) eqn:F; [|discriminate].
  intros [= <-]. rewrite (proj2 (broken_down_ok off t)), F. reflexivity.
Qed.
Lemma initializeDate_ok off t : year_fits (broken_down off t) = true ->
  initializeDate off t = Ok ({| timer := t; backUp := broken_down off t |}, broken_down off t).
Proof.
  intros F. unfold initializeDate. assert (L : localtime off t = Some (broken_down off t)) by (unfold localtime; now rewrite F).
  rewrite L. unfold updateDateStatus. now rewrite (mktime_localtime _ _ _ L).
Qed.
