(** Lemmas about CppText and TextSpec. *)

From Coq Require Import ZArith List Lia Bool.
From Verif Require Import Base Bits CppText TextSpec.
Import ListNotations.
Open Scope Z_scope.

Lemma str_eqb_eq a b : str_eqb a b = true <-> a = b.
Proof.
  revert b; induction a as [|x a IH]; intros [|y b]; simpl; try (split; congruence).
  rewrite andb_true_iff, Z.eqb_eq, IH. split; [intros [-> ->]; auto | intros H; inversion H; auto].
Qed.
Lemma str_eqb_refl a : str_eqb a a = true.
Proof. apply str_eqb_eq; reflexivity. Qed.
Lemma str_eqb_neq a b : str_eqb a b = false <-> a <> b.
Proof. rewrite <- str_eqb_eq. destruct (str_eqb a b); split; congruence. Qed.

Lemma prefixb_spec p l : prefixb p l = true <-> exists t, l = p ++ t.
Proof.
  revert l; induction p as [|x p IH]; intros l; simpl.
  - split; eauto.
  - destruct l as [|y l]; [split; [discriminate | intros [t H]; discriminate]|].
    rewrite andb_true_iff, Z.eqb_eq, IH. split.
    + intros [-> [t ->]]. exists t; reflexivity.
    + intros [t H]. inversion H; subst. split; eauto.
Qed.

Lemma zlen_cons {A} (x : A) l : zlen (x :: l) = zlen l + 1.
Proof. unfold zlen; cbn [length]. lia. Qed.
Lemma zlen_nil {A} : zlen (@nil A) = 0.
Proof. reflexivity. Qed.
Lemma zlen_rev {A} (l : list A) : zlen (rev l) = zlen l.
Proof. unfold zlen; rewrite rev_length; reflexivity. Qed.
Lemma zlen_0 {A} (l : list A) : zlen l = 0 -> l = [].
Proof. destruct l; [auto|]. unfold zlen; cbn [length]; lia. Qed.
Lemma zlen_map {A B} (f : A -> B) l : zlen (map f l) = zlen l.
Proof. unfold zlen; rewrite map_length; reflexivity. Qed.
Lemma zlen_skipn {A} n (l : list A) : 0 <= n <= zlen l -> zlen (skipn (Z.to_nat n) l) = zlen l - n.
Proof. unfold zlen; rewrite skipn_length; lia. Qed.
Lemma zlen_firstn {A} n (l : list A) : 0 <= n <= zlen l -> zlen (firstn (Z.to_nat n) l) = n.
Proof. unfold zlen; rewrite firstn_length; lia. Qed.

Lemma occurs_0 p s : occurs p s 0 <-> prefixb p s = true.
Proof.
  rewrite prefixb_spec. split.
  - intros (a & b & -> & H). apply zlen_0 in H; subst. exists b; reflexivity.
  - intros [t ->]. exists [], t; auto.
Qed.

Lemma occurs_cons p c s i : 0 < i -> (occurs p (c :: s) i <-> occurs p s (i - 1)).
Proof.
  intros Hi. split.
  - intros (a & b & H & L). destruct a as [|x a]; [rewrite zlen_nil in L; lia|].
    inversion H; subst. rewrite zlen_cons. exists a, b. split; auto; lia.
  - intros (a & b & H & L). exists (c :: a), b. rewrite zlen_cons. subst. split; [reflexivity | lia].
Qed.

Lemma occurs_nonneg p s i : occurs p s i -> 0 <= i /\ i + zlen p <= zlen s.
Proof.
  intros (a & b & -> & <-). rewrite !zlen_app.
  pose proof (zlen_nonneg a); pose proof (zlen_nonneg b); lia.
Qed.

Lemma occurs_skipn p s n i : 0 <= i -> 0 <= n <= zlen s ->
  (occurs p (skipn (Z.to_nat n) s) i <-> occurs p s (i + n)).
Proof.
  intros Hi Hn. split.
  - intros (a & b & H & L). exists (firstn (Z.to_nat n) s ++ a), b. split.
    + rewrite <- app_assoc, <- H. symmetry; apply firstn_skipn.
    + rewrite zlen_app, zlen_firstn by lia. lia.
  - intros (a & b & H & L).
    assert (La : (Z.to_nat n <= length a)%nat) by (unfold zlen in L; lia).
    exists (skipn (Z.to_nat n) a), b. split.
    + rewrite H, skipn_app. replace (Z.to_nat n - length a)%nat with 0%nat by lia. reflexivity.
    + unfold zlen in *. rewrite skipn_length. lia.
Qed.

Lemma find_from_spec p l i :
  match find_from p l i with
  | Some r => i <= r /\ occurs p l (r - i) /\ forall j, 0 <= j < r - i -> ~ occurs p l j
  | None => forall j, ~ occurs p l j
  end.
Proof.
  revert i; induction l as [|c l IH]; intros i; cbn [find_from].
  - destruct (prefixb p []) eqn:E.
    + rewrite <- occurs_0 in E. replace (i - i) with 0 by lia. repeat split; auto; intros; lia.
    + intros j Hj. pose proof (occurs_nonneg _ _ _ Hj) as B. change (0 <= j /\ j + zlen p <= 0) in B.
      pose proof (zlen_nonneg p). replace j with 0 in Hj by lia.
      rewrite occurs_0 in Hj. congruence.
  - destruct (prefixb p (c :: l)) eqn:E.
    + rewrite <- occurs_0 in E. replace (i - i) with 0 by lia. repeat split; auto; intros; lia.
    + assert (H0 : ~ occurs p (c :: l) 0) by (rewrite occurs_0; congruence).
      specialize (IH (i + 1)). destruct (find_from p l (i + 1)) as [r|].
      * destruct IH as (Hr & Ho & Hf). repeat split; [lia| |].
        -- rewrite occurs_cons by lia. replace (r - i - 1) with (r - (i + 1)) by lia. exact Ho.
        -- intros j Hj Hc. destruct (Z.eq_dec j 0) as [->|]; [auto|].
           rewrite occurs_cons in Hc by lia. apply (Hf (j - 1)); auto; lia.
      * intros j Hc. pose proof (occurs_nonneg _ _ _ Hc).
        destruct (Z.eq_dec j 0) as [->|]; [auto|].
        rewrite occurs_cons in Hc by lia. apply (IH (j - 1)); auto.
Qed.

Lemma str_find_spec p s pos : 0 <= pos ->
  match str_find p s pos with
  | Some r => pos <= r /\ occurs p s r /\ forall j, pos <= j < r -> ~ occurs p s j
  | None => forall j, pos <= j -> ~ occurs p s j
  end.
Proof.
  intros Hp. unfold str_find. destruct (zlen s <? pos) eqn:E.
  - intros j Hj Ho. pose proof (occurs_nonneg _ _ _ Ho). pose proof (zlen_nonneg p). lia.
  - pose proof (find_from_spec p (skipn (Z.to_nat pos) s) pos) as H.
    destruct (find_from p (skipn (Z.to_nat pos) s) pos) as [r|].
    + destruct H as (Hr & Ho & Hf). repeat split; [lia| |].
      * rewrite occurs_skipn in Ho by lia. replace (r - pos + pos) with r in Ho by lia. exact Ho.
      * intros j Hj Hc. apply (Hf (j - pos)); [lia|]. rewrite occurs_skipn by lia.
        replace (j - pos + pos) with j by lia. exact Hc.
    + intros j Hj Hc. apply (H (j - pos)). rewrite occurs_skipn by lia.
      replace (j - pos + pos) with j by lia. exact Hc.
Qed.

Lemma str_find_max p s pos r : 0 <= pos -> str_find p s pos = Some r -> r + zlen p <= zlen s.
Proof.
  intros Hp H. pose proof (str_find_spec p s pos Hp) as S. rewrite H in S.
  destruct S as (_ & Ho & _). apply occurs_nonneg in Ho. lia.
Qed.

(** Occurrence of a single character. *)
Lemma occurs_char c s i : occurs [c] s i <-> znth s i = Some c.
Proof.
  split.
  - intros (a & b & -> & <-). unfold znth. pose proof (zlen_nonneg a).
    replace (zlen a <? 0) with false by lia. unfold zlen. rewrite Nat2Z.id.
    rewrite nth_error_app2, Nat.sub_diag by lia. reflexivity.
  - unfold znth. destruct (i <? 0) eqn:E; [discriminate|]. intros H.
    apply nth_error_split in H. destruct H as (a & b & -> & H).
    exists a, b. split; auto. unfold zlen. lia.
Qed.

(** ** cstr *)
Lemma cstr_id s : Forall (fun c => c <> 0) s -> cstr s = s.
Proof.
  induction 1 as [|c s Hc Hs IH]; cbn [cstr]; auto.
  destruct (Z.eqb_spec c 0); [contradiction|]. now rewrite IH.
Qed.
Lemma cstr_nonul s : Forall (fun c => c <> 0) (cstr s).
Proof.
  induction s as [|c s IH]; cbn [cstr]; auto.
  destruct (Z.eqb_spec c 0); auto.
Qed.

(** ** Numerals *)

Lemma numval_snoc b ds d : numval b (ds ++ [d]) = numval b ds * b + d.
Proof. unfold numval. rewrite fold_left_app. reflexivity. Qed.

Lemma numval_app b ds es : numval b (ds ++ es) = numval b ds * b ^ zlen es + numval b es.
Proof.
  revert ds. induction es as [|e es IH] using rev_ind; intros ds.
  - rewrite app_nil_r, zlen_nil. unfold numval at 3; simpl. lia.
  - rewrite app_assoc, !numval_snoc.
    rewrite IH, zlen_app. replace (zlen [e]) with 1 by reflexivity.
    rewrite Z.pow_add_r by (pose proof (zlen_nonneg es); lia). lia.
Qed.

Lemma numval_cons b d ds : numval b (d :: ds) = d * b ^ zlen ds + numval b ds.
Proof. change (d :: ds) with ([d] ++ ds). rewrite numval_app. f_equal. Qed.

Lemma numval_bound b ds : 0 < b -> Forall (fun d => 0 <= d < b) ds ->
  0 <= numval b ds < b ^ zlen ds.
Proof.
  intros Hb. induction ds as [|d ds IH] using rev_ind; intros H.
  - unfold numval; simpl. lia.
  - apply Forall_app in H. destruct H as [H1 H2]. inversion H2; subst.
    specialize (IH H1). rewrite numval_snoc, zlen_app. replace (zlen [d]) with 1 by reflexivity.
    rewrite Z.pow_add_r by (pose proof (zlen_nonneg ds); lia). nia.
Qed.

Lemma digit_char_val d : 0 <= d < 36 -> digit_val (digit_char d) = Some d.
Proof.
  intros H. unfold digit_char, digit_val, is_digit_c, is_lower_c, is_upper_c.
  destruct (d <? 10) eqn:E.
  - replace ((48 <=? 48 + d) && (48 + d <=? 57)) with true by lia. f_equal; lia.
  - replace ((48 <=? 87 + d) && (87 + d <=? 57)) with false by lia.
    replace ((97 <=? 87 + d) && (87 + d <=? 122)) with true by lia. f_equal; lia.
Qed.

Lemma digit_val_range c d : digit_val c = Some d -> 0 <= d < 36.
Proof.
  unfold digit_val, is_digit_c, is_lower_c, is_upper_c.
  destruct ((48 <=? c) && (c <=? 57)) eqn:E1; [intros H; inversion H; lia|].
  destruct ((97 <=? c) && (c <=? 122)) eqn:E2; [intros H; inversion H; lia|].
  destruct ((65 <=? c) && (c <=? 90)) eqn:E3; [intros H; inversion H; lia|discriminate].
Qed.

Lemma digits_le_spec fuel : forall b n, 2 <= b -> 0 <= n -> n < 2 ^ Z.of_nat fuel ->
  let l := digits_le fuel b n in
  n = numval b (rev l) /\ Forall (fun d => 0 <= d < b) l /\
  (n = 0 -> fuel <> O -> l = [0]) /\ (0 < n -> l <> [] /\ last l 0 <> 0).
Proof.
  induction fuel as [|k IH]; intros b n Hb Hn Hf.
  - cbn [digits_le] in *. change (2 ^ Z.of_nat 0) with 1 in Hf. assert (n = 0) by lia. subst.
    simpl. repeat split; auto; try lia; intros; congruence.
  - cbn [digits_le]. destruct (n <? b) eqn:E.
    + cbv zeta. split; [unfold numval; cbn; reflexivity|].
      split; [repeat constructor; lia|].
      split; [intros ->; reflexivity|].
      intros Hp. split; [discriminate | cbn; lia].
    + assert (Hq : 0 <= n / b) by (apply Z.div_pos; lia).
      assert (Hq1 : 0 < n / b) by (apply Z.div_str_pos; lia).
      assert (Hq2 : n / b < 2 ^ Z.of_nat k).
      { apply Z.div_lt_upper_bound; [lia|].
        rewrite Nat2Z.inj_succ, Z.pow_succ_r in Hf by lia.
        pose proof (pow2_pos (Z.of_nat k) ltac:(lia)). nia. }
      destruct (IH b (n / b) Hb Hq Hq2) as (V & F & Z0 & NZ). cbv zeta in *.
      destruct (NZ Hq1) as [N1 N2].
      repeat split.
      * cbn [rev]. rewrite numval_snoc, <- V. rewrite Z.mul_comm. apply Z.div_mod; lia.
      * constructor; auto. apply Z.mod_pos_bound; lia.
      * intros ->. lia.
      * discriminate.
      * destruct (digits_le k b (n / b)) as [|d t] eqn:Ed; [congruence|]. exact N2.
Qed.

Lemma digits_fuel_ok n : 0 <= n -> n < 2 ^ Z.of_nat (digits_fuel n).
Proof.
  intros Hn. unfold digits_fuel. rewrite Nat2Z.inj_succ, Z2Nat.id by apply Z.log2_nonneg.
  destruct (Z.eq_dec n 0) as [->|]; [reflexivity|]. apply Z.log2_spec; lia.
Qed.

(** Digits of [utoa]. *)
Definition udigits (b n : Z) : list Z := rev (digits_le (digits_fuel n) b n).
Lemma utoa_udigits b n : utoa b n = map digit_char (udigits b n).
Proof. reflexivity. Qed.
Lemma udigits_spec b n : 2 <= b -> 0 <= n ->
  numval b (udigits b n) = n /\ Forall (fun d => 0 <= d < b) (udigits b n) /\
  udigits b n <> [] /\ (hd 0 (udigits b n) = 0 -> udigits b n = [0] /\ n = 0).
Proof.
  intros Hb Hn.
  destruct (digits_le_spec (digits_fuel n) b n Hb Hn (digits_fuel_ok n Hn)) as (V & F & Z0 & NZ).
  unfold udigits. cbv zeta in *. repeat split.
  - auto.
  - apply Forall_rev; auto.
  - intros H. apply (f_equal (@rev Z)) in H. rewrite rev_involutive in H. cbn [rev] in H.
    destruct (Z.eq_dec n 0) as [->|Hnz].
    + rewrite Z0 in H by (auto; discriminate). discriminate.
    + destruct NZ as [N1 _]; [lia|]. congruence.
  - destruct (Z.eq_dec n 0) as [->|Hnz].
    + rewrite Z0 by (auto; discriminate). reflexivity.
    + destruct NZ as [N1 N2]; [lia|]. exfalso. apply N2.
      destruct (exists_last N1) as (l' & a & El). rewrite El, last_last.
      rewrite El, rev_app_distr in H. exact H.
  - destruct (Z.eq_dec n 0) as [->|Hnz]; auto.
    destruct NZ as [N1 N2]; [lia|]. exfalso. apply N2.
      destruct (exists_last N1) as (l' & a & El). rewrite El, last_last.
      rewrite El, rev_app_distr in H. exact H.
Qed.

Lemma digit_char_0 d : 0 <= d < 36 -> digit_char d = 48 -> d = 0.
Proof. unfold digit_char. destruct (d <? 10) eqn:E; lia. Qed.
Lemma digit_char_not_upper d : 0 <= d < 36 -> is_upper_c (digit_char d) = false.
Proof. unfold digit_char, is_upper_c. destruct (d <? 10) eqn:E; lia. Qed.
Lemma digit_char_byte d : 0 <= d < 36 -> 48 <= digit_char d <= 122.
Proof. unfold digit_char. destruct (d <? 10) eqn:E; lia. Qed.

Lemma numeral_digits b ds : b <= 36 -> Forall (fun d => 0 <= d < b) ds -> ds <> [] ->
  numeral b (map digit_char ds) (numval b ds).
Proof.
  intros Hb H Hne. split.
  - destruct ds; [congruence|discriminate].
  - exists ds. split; auto. clear Hne. induction H as [|d ds Hd H IH]; simpl; constructor; auto.
    split; [apply digit_char_val; lia | lia].
Qed.

Lemma utoa_canonical b n : 2 <= b <= 36 -> 0 <= n -> canonical_unsigned b (utoa b n) n.
Proof.
  intros Hb Hn. destruct (udigits_spec b n ltac:(lia) Hn) as (V & F & N & Z0).
  rewrite utoa_udigits. repeat split.
  - destruct (udigits b n); [congruence|discriminate].
  - destruct (numeral_digits b (udigits b n) ltac:(lia) F N) as [_ (ds & D1 & D2)].
    exists ds. split; auto. congruence.
  - apply Forall_map. eapply Forall_impl; [|exact F]. intros d Hd; cbv beta in Hd. apply digit_char_not_upper; lia.
  - intros H. destruct (udigits b n) as [|d t] eqn:E; [congruence|].
    simpl in H. inversion F; subst. apply digit_char_0 in H; [|lia]. subst.
    simpl in Z0. destruct Z0 as [Z1 _]; auto. inversion Z1. reflexivity.
Qed.

Lemma take_digits_all b s ds : Forall2 (is_digit b) s ds -> take_digits b s = ds.
Proof.
  induction 1 as [|c d s ds [Hc Hd] H IH]; cbn [take_digits]; auto.
  rewrite Hc. replace (d <? b) with true by lia. now rewrite IH.
Qed.

Lemma is_digit_notspace b c d : is_digit b c d ->
  is_space_c c = false /\ c <> 45 /\ c <> 43 /\ c <> 0.
Proof.
  intros [H _]. revert H.
  unfold digit_val, is_space_c, is_digit_c, is_lower_c, is_upper_c.
  destruct ((48 <=? c) && (c <=? 57)) eqn:E1; [intros; lia|].
  destruct ((97 <=? c) && (c <=? 122)) eqn:E2; [intros; lia|].
  destruct ((65 <=? c) && (c <=? 90)) eqn:E3; [intros; lia|discriminate].
Qed.

Lemma strip_0x_digits b s ds : b <= 32 -> Forall2 (is_digit b) s ds -> strip_0x b s = s.
Proof.
  intros Hb H. unfold strip_0x.
  destruct s as [|z [|x [|d t]]]; auto.
  inversion H as [|? ? ? ? Hz H1]; subst. inversion H1 as [|? ? ? ? Hx H2]; subst.
  destruct ((b =? 16) && (z =? 48) && ((x =? 120) || (x =? 88))) eqn:E; [|reflexivity].
  exfalso. destruct Hx as [Hx1 Hx2].
  assert (x = 120 \/ x = 88) as [-> | ->] by lia; vm_compute in Hx1; inversion Hx1; lia.
Qed.

(** stoul on a plain numeral. *)
Lemma stoul_numeral b s v : 2 <= b <= 32 -> numeral b s v ->
  stoul b s = if 2 ^ 64 <=? v then Throw OutOfRange else Ok v.
Proof.
  intros Hb [Hne (ds & F & ->)]. unfold stoul.
  destruct s as [|c t]; [congruence|].
  inversion F as [|? d ? ds' Hc F']; subst.
  destruct (is_digit_notspace _ _ _ Hc) as (N1 & N2 & N3 & N4).
  cbn [skip_ws]. rewrite N1. cbn [strip_sign].
  destruct (Z.eqb_spec c 45); [contradiction|]. destruct (Z.eqb_spec c 43); [contradiction|].
  rewrite (strip_0x_digits b (c :: t) (d :: ds')) by (auto; lia).
  rewrite (take_digits_all b (c :: t) (d :: ds')) by auto.
  reflexivity.
Qed.

Lemma numeral_nonul b s v : numeral b s v -> Forall (fun c => c <> 0) s.
Proof.
  intros [_ (ds & F & _)]. induction F as [|c d s ds Hc F IH]; constructor; auto.
  eapply is_digit_notspace; eauto.
Qed.

Lemma numeral_range b s v : 0 < b -> numeral b s v -> 0 <= v.
Proof.
  intros Hb [_ (ds & F & ->)].
  assert (Forall (fun d => 0 <= d < b) ds).
  { clear -F. induction F as [|c d s ds [Hc Hd] F IH]; constructor; auto.
    apply digit_val_range in Hc. lia. }
  apply numval_bound in H; lia.
Qed.

Lemma numeral_hd b s v : numeral b s v -> exists c t, s = c :: t /\ is_space_c c = false
   /\ c <> 45 /\ c <> 43 /\ c <> 0.
Proof.
  intros [Hne (ds & F & _)]. destruct F as [|c d s ds Hc F]; [congruence|].
  exists c, s. split; auto. eapply is_digit_notspace; eauto.
Qed.

Lemma numeral_fun b s v w : numeral b s v -> numeral b s w -> v = w.
Proof.
  intros [_ (ds & F & ->)] [_ (es & G & ->)].
  apply take_digits_all in F. apply take_digits_all in G. congruence.
Qed.

(** [rewrite zlen_nil in H] does not see the type argument; this does. *)
Ltac znil := repeat match goal with
  | H : context [zlen (@nil ?T)] |- _ => change (zlen (@nil T)) with 0 in H
  | |- context [zlen (@nil ?T)] => change (zlen (@nil T)) with 0
  end.
