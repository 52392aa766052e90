From Coq Require Import ZArith List Lia Bool.
From Verif Require Import Base Bits CppText TextSpec TextLemmas StringModel StringSpec.
Import ListNotations.
Open Scope Z_scope.

(** Strings whose length fits in an int (the code casts size() to int). *)
Definition small (s : str) : Prop := zlen s <= int_max.

Lemma gt_size_nonempty s i : s <> [] -> small s -> gt_size_minus_1 i s = (zlen s <=? i).
Proof.
  intros Hs Hl. unfold gt_size_minus_1, small, int_max in *.
  assert (0 < zlen s). { destruct s; [congruence|]. rewrite zlen_cons. pose proof (zlen_nonneg s). lia. }
  rewrite uwrap_id by lia. lia.
Qed.
Lemma gt_size_empty i : is_int i -> gt_size_minus_1 i [] = false.
Proof. unfold gt_size_minus_1, is_int, int_max. intros H. znil. vm_compute (uwrap 64 (0 - 1)). lia. Qed.

Lemma gt_size_in s i : 0 <= i < zlen s -> small s -> gt_size_minus_1 i s = false.
Proof. intros H Hl. rewrite gt_size_nonempty; auto; [lia|]. intros ->. znil. lia. Qed.

(** ** Bounds *)
Lemma charAt_in s i : 0 <= i < zlen s -> small s -> exists c, znth s i = Some c /\ charAt s i = Ok c.
Proof.
  intros Hi Hl. unfold charAt. rewrite gt_size_in by auto. replace (i <? 0) with false by lia. simpl.
  destruct (znth_ex s i Hi) as [c Hc]. exists c. split; auto. unfold str_get. rewrite Hc. reflexivity.
Qed.
Lemma charAt_znth s i c : small s -> znth s i = Some c -> charAt s i = Ok c.
Proof.
  intros Hl H. pose proof (znth_Some_lt _ _ _ H). destruct (charAt_in s i H0 Hl) as (d & A & B). congruence.
Qed.
Lemma charAt_out s i : s <> [] -> small s -> (i < 0 \/ zlen s <= i) ->
  charAt s i = Throw StringIndexOutOfBoundsException.
Proof.
  intros Hs Hl Hi. unfold charAt. rewrite gt_size_nonempty by auto.
  replace ((i <? 0) || (zlen s <=? i)) with true by lia. reflexivity.
Qed.
Lemma charAt_empty i : is_int i ->
  charAt [] i = if i <? 0 then Throw StringIndexOutOfBoundsException
                else if i =? 0 then Ok 0 else UB OutOfBounds.
Proof.
  intros Hi. unfold charAt. rewrite gt_size_empty by auto. rewrite orb_false_r.
  destruct (i <? 0) eqn:E; auto. unfold str_get. znil.
  replace (znth (@nil Z) i) with (@None Z).
  - destruct (i =? 0); auto.
  - symmetry. apply znth_None. znil. lia.
Qed.

Lemma is_slice_intro s i j : 0 <= i <= j -> j <= zlen s ->
  is_slice s i j (firstn (Z.to_nat (j - i)) (skipn (Z.to_nat i) s)).
Proof.
  intros Hi Hj.
  exists (firstn (Z.to_nat i) s), (skipn (Z.to_nat (j - i)) (skipn (Z.to_nat i) s)).
  rewrite firstn_skipn, firstn_skipn. split; auto.
  rewrite !zlen_firstn; try lia. rewrite zlen_skipn; lia.
Qed.
Lemma app_eq_len {A} (a a' x y : list A) : length a = length a' -> a ++ x = a' ++ y -> a = a' /\ x = y.
Proof.
  revert a'; induction a as [|c a IH]; intros [|d a'] L H; try discriminate; auto.
  injection H as -> H. injection L as L. destruct (IH a' L H); subst; auto.
Qed.
Lemma is_slice_fun s i j t u : is_slice s i j t -> is_slice s i j u -> t = u.
Proof.
  intros (a & b & E & A & B) (a' & b' & E' & A' & B').
  assert (L : length a = length a') by (unfold zlen in *; lia).
  assert (L2 : length t = length u) by (unfold zlen in *; lia).
  rewrite E in E'.
  destruct (app_eq_len _ _ _ _ L E') as [_ E2]. destruct (app_eq_len _ _ _ _ L2 E2); auto.
Qed.

Lemma getStringFromIndex_in s i : small s -> 0 <= i < zlen s ->
  getStringFromIndex s i = Ok (skipn (Z.to_nat i) s).
Proof.
  intros Hl Hi. unfold getStringFromIndex. rewrite gt_size_in by auto.
  replace (i <? 0) with false by lia. simpl. unfold str_substr.
  replace (zlen s <? i) with false by lia. f_equal. apply firstn_all2.
  rewrite skipn_length. unfold zlen. lia.
Qed.
Lemma getStringFromIndex_out s i : s <> [] -> small s -> (i < 0 \/ zlen s <= i) ->
  getStringFromIndex s i = Throw StringIndexOutOfBoundsException.
Proof.
  intros Hs Hl Hi. unfold getStringFromIndex. rewrite gt_size_nonempty by auto.
  replace ((i <? 0) || (zlen s <=? i)) with true by lia. reflexivity.
Qed.
Lemma getStringFromIndex_empty i : is_int i ->
  getStringFromIndex [] i = if i <? 0 then Throw StringIndexOutOfBoundsException
                else if i =? 0 then Ok [] else Throw OutOfRange.
Proof.
  intros Hi. unfold getStringFromIndex. rewrite gt_size_empty by auto. rewrite orb_false_r.
  destruct (i <? 0) eqn:E; auto. unfold str_substr. znil.
  destruct (Z.eqb_spec i 0) as [->|]; [reflexivity|]. replace (0 <? i) with true by lia. reflexivity.
Qed.

Lemma subString_in s i j : 0 <= i <= j -> j <= zlen s ->
  exists t, subString s i j = Ok t /\ is_slice s i j t.
Proof.
  intros Hi Hj. eexists. split; [|apply is_slice_intro; eauto].
  unfold subString.
  replace ((j <? i) || (i <? 0) || (zlen s <? i) || (j <? 0) || (zlen s <? j)) with false by lia.
  unfold str_substr. replace (zlen s <? i) with false by lia. reflexivity.
Qed.
Lemma subString_out s i j : ~ (0 <= i <= j /\ j <= zlen s) -> subString s i j = Ok [].
Proof.
  intros H. unfold subString.
  destruct ((j <? i) || (i <? 0) || (zlen s <? i) || (j <? 0) || (zlen s <? j)) eqn:E; auto. lia.
Qed.
Lemma subString_total s i j : exists t, subString s i j = Ok t.
Proof.
  destruct (Z_le_dec 0 i), (Z_le_dec i j), (Z_le_dec j (zlen s));
    try (destruct (subString_in s i j) as (t & A & _); [lia|lia|]; exists t; exact A);
    exists []; apply subString_out; lia.
Qed.

(** ** Search *)
Lemma first_in_find p s lo hi : 0 <= lo -> zlen s - zlen p <= hi ->
  first_in p s lo hi (match str_find p s lo with Some i => i | None => -1 end).
Proof.
  intros Hl Hh. pose proof (str_find_spec p s lo Hl) as H.
  destruct (str_find p s lo) as [r|].
  - destruct H as (A & B & C). left. pose proof (occurs_nonneg _ _ _ B). repeat split; auto; lia.
  - right. split; auto. intros j Hj. apply H. lia.
Qed.

Lemma first_in_hi p s lo hi hi' i : zlen s - zlen p <= hi -> zlen s - zlen p <= hi' ->
  first_in p s lo hi i -> first_in p s lo hi' i.
Proof.
  intros H1 H2 [(A & B & C)|(A & B)].
  - left. pose proof (occurs_nonneg _ _ _ B). repeat split; auto; lia.
  - right. split; auto. intros j Hj Ho. pose proof (occurs_nonneg _ _ _ Ho). apply (B j); auto; lia.
Qed.

Lemma contains_spec s p : contains s p = true <-> exists i, occurs p s i.
Proof.
  unfold contains. pose proof (str_find_spec p s 0 ltac:(lia)) as H.
  destruct (str_find p s 0) as [r|].
  - split; auto. intros _. exists r. tauto.
  - split; [discriminate|]. intros (i & Hi). exfalso. apply (H i); auto.
    apply occurs_nonneg in Hi. lia.
Qed.

Lemma indexOf_char_ok s ch : ch <> 0 -> first_in [ch] s 0 (zlen s - 1) (indexOf_char s ch).
Proof.
  intros H. unfold indexOf_char. destruct (Z.eqb_spec ch 0); [contradiction|].
  apply first_in_find; [lia|]. change (zlen [ch]) with 1. lia.
Qed.
Lemma indexOf_char_nul s : indexOf_char s 0 = 0.
Proof. unfold indexOf_char, str_find. simpl. pose proof (zlen_nonneg s).
  replace (zlen s <? 0) with false by lia. destruct s; reflexivity. Qed.

Lemma scan_char_ok ch l i : 0 <= i ->
  (scan_char l ch i = -1 /\ forall j, znth l j <> Some ch) \/
  (i <= scan_char l ch i /\ znth l (scan_char l ch i - i) = Some ch /\
   forall j, 0 <= j < scan_char l ch i - i -> znth l j <> Some ch).
Proof.
  revert i; induction l as [|c l IH]; intros i Hi; cbn [scan_char].
  - left. split; auto. intros j Hj. apply znth_Some_lt in Hj. znil. lia.
  - destruct (Z.eqb_spec c ch) as [->|Hne].
    + right. replace (i - i) with 0 by lia. repeat split; [lia|]. intros; lia.
    + assert (Sh : forall j, 0 < j -> znth (c :: l) j = znth l (j - 1)).
      { intros j Hj. rewrite !znth_nth by lia. replace (Z.to_nat j) with (S (Z.to_nat (j - 1))) by lia. reflexivity. }
      destruct (IH (i + 1) ltac:(lia)) as [[A B]|(A & B & C)].
      * left. split; auto. intros j Hj. pose proof (znth_Some_lt _ _ _ Hj).
        destruct (Z.eq_dec j 0) as [->|]; [cbn in Hj; congruence|].
        rewrite Sh in Hj by lia. apply (B _ Hj).
      * right. repeat split; [lia| |].
        -- rewrite Sh by lia. rewrite <- B. f_equal. lia.
        -- intros j Hj. destruct (Z.eq_dec j 0) as [->|]; [cbn; congruence|].
           rewrite Sh by lia. apply C. lia.
Qed.

Lemma znth_skipn {A} (s : list A) n j : 0 <= n -> 0 <= j -> znth (skipn (Z.to_nat n) s) j = znth s (j + n).
Proof.
  intros Hn Hj. rewrite !znth_nth by lia. replace (Z.to_nat (j + n)) with (Z.to_nat n + Z.to_nat j)%nat by lia.
  revert s. induction (Z.to_nat n) as [|k IH]; intros s; [reflexivity|].
  destruct s; simpl; [now destruct (Z.to_nat j)|]. apply IH.
Qed.

Lemma indexOf_char_from_ok s ch from : ch <> 0 \/ 0 <= from ->
  first_in [ch] s (Z.max 0 from) (zlen s - 1) (indexOf_char_from s ch from).
Proof.
  intros H. unfold indexOf_char_from. pose proof (zlen_nonneg s).
  destruct (zlen s <? from) eqn:E1.
  - right. split; auto. intros; lia.
  - destruct (from <? 0) eqn:E2.
    + replace (Z.max 0 from) with 0 by lia. apply indexOf_char_ok. lia.
    + replace (Z.max 0 from) with from by lia.
      destruct (scan_char_ok ch (skipn (Z.to_nat from) s) from ltac:(lia)) as [[A B]|(A & B & C)].
      * right. split; auto. intros j Hj Ho. apply occurs_char in Ho.
        apply (B (j - from)). rewrite znth_skipn by lia. rewrite <- Ho. f_equal. lia.
      * left. set (r := scan_char _ _ _) in *.
        rewrite znth_skipn in B by lia. replace (r - from + from) with r in B by lia.
        pose proof (znth_Some_lt _ _ _ B). repeat split; try lia.
        -- apply occurs_char. auto.
        -- intros j Hj Ho. apply occurs_char in Ho. apply (C (j - from)); [lia|].
           rewrite znth_skipn by lia. rewrite <- Ho. f_equal. lia.
Qed.

Lemma indexOf_str_ok s p : p <> [] -> first_in p s 0 (zlen s) (indexOf_str s p).
Proof.
  intros Hp. unfold indexOf_str.
  assert (E : str_eqb p [] = false) by (apply str_eqb_neq; auto). rewrite E, orb_false_r.
  assert (0 < zlen p). { destruct p; [congruence|]. rewrite zlen_cons. pose proof (zlen_nonneg p). lia. }
  destruct (zlen s =? 0) eqn:Es.
  - right. split; auto. intros j Hj Ho. apply occurs_nonneg in Ho. lia.
  - apply first_in_find; lia.
Qed.
Lemma indexOf_str_empty s : indexOf_str s [] = -1.
Proof. unfold indexOf_str. simpl. now rewrite orb_true_r. Qed.

Lemma indexOf_str_from_ok s p from : p <> [] -> small s -> is_int from ->
  exists r, indexOf_str_from s p from = Ok r /\ first_in p s (Z.max 0 from) (zlen s) r.
Proof.
  intros Hp Hl Hf. unfold indexOf_str_from.
  assert (0 < zlen p). { destruct p; [congruence|]. rewrite zlen_cons. pose proof (zlen_nonneg p). lia. }
  pose proof (zlen_nonneg s).
  destruct (from <? 0) eqn:E0.
  { eexists; split; eauto. replace (Z.max 0 from) with 0 by lia. apply indexOf_str_ok; auto. }
  assert (E : str_eqb p [] = false) by (apply str_eqb_neq; auto). rewrite E, orb_false_r.
  replace (Z.max 0 from) with from by lia.
  destruct (zlen s =? 0) eqn:Es.
  { eexists; split; eauto. right. split; auto. intros j Hj Ho. apply occurs_nonneg in Ho. lia. }
  rewrite gt_size_nonempty; auto; [|intros ->; znil; lia].
  destruct ((zlen s <=? from) || (zlen s <? zlen p)) eqn:E2.
  { eexists; split; eauto. right. split; auto. intros j Hj Ho. apply occurs_nonneg in Ho. lia. }
  unfold str_substr. replace (zlen s <? from) with false by lia. cbn [bind].
  rewrite firstn_all2 by (rewrite skipn_length; unfold zlen; lia).
  pose proof (str_find_spec p (skipn (Z.to_nat from) s) 0 ltac:(lia)) as S.
  destruct (str_find p (skipn (Z.to_nat from) s) 0) as [r|].
  - destruct S as (A & B & C). eexists; split; eauto. left.
    rewrite occurs_skipn in B by lia. pose proof (occurs_nonneg _ _ _ B). repeat split; auto; try lia.
    intros j Hj Ho. apply (C (j - from)); [lia|]. rewrite occurs_skipn by lia.
    replace (j - from + from) with j by lia. auto.
  - eexists; split; eauto. right. split; auto. intros j Hj Ho.
    apply (S (j - from)); [lia|]. rewrite occurs_skipn by lia.
    replace (j - from + from) with j by lia. auto.
Qed.

Lemma scan_back_ok s ch n : small s -> Z.of_nat n <= zlen s ->
  exists r, scan_back s ch n = Ok r /\ last_in [ch] s 0 (Z.of_nat n - 1) r.
Proof.
  intros Hl. induction n as [|k IH]; intros Hn.
  - eexists; split; [reflexivity|]. right. split; auto. intros; lia.
  - cbn [scan_back]. destruct (charAt_in s (Z.of_nat k) ltac:(lia) Hl) as (c & Hc & ->). cbn [bind].
    destruct (Z.eqb_spec c ch) as [->|Hne].
    + eexists; split; [reflexivity|]. left. repeat split; try lia.
      apply occurs_char; auto.
    + destruct (IH ltac:(lia)) as (r & -> & Hr). eexists; split; [reflexivity|].
      assert (N : ~ occurs [ch] s (Z.of_nat k)) by (rewrite occurs_char, Hc; congruence).
      destruct Hr as [(A & B & C)|(A & B)].
      * left. repeat split; auto; try lia. intros j Hj. destruct (Z.eq_dec j (Z.of_nat k)) as [->|]; auto.
        apply C. lia.
      * right. split; auto. intros j Hj. destruct (Z.eq_dec j (Z.of_nat k)) as [->|]; auto. apply B. lia.
Qed.

Lemma lastIndexOf_char_ok s ch : small s ->
  exists r, lastIndexOf_char s ch = Ok r /\ last_in [ch] s 0 (zlen s - 1) r.
Proof. intros Hl. apply scan_back_ok; auto. unfold zlen. lia. Qed.

Lemma lastIndexOf_char_from_ok s ch from : s <> [] -> small s ->
  exists r, lastIndexOf_char_from s ch from = Ok r /\
    last_in [ch] s 0 (if zlen s <=? from then zlen s - 1 else from - 1) r.
Proof.
  intros Hs Hl. unfold lastIndexOf_char_from. pose proof (zlen_nonneg s). destruct (from <? 0) eqn:E.
  - eexists; split; [reflexivity|]. right. split; auto. intros j Hj.
    replace (zlen s <=? from) with false in Hj by lia. lia.
  - rewrite gt_size_nonempty by auto. destruct (zlen s <=? from) eqn:E2.
    + apply lastIndexOf_char_ok; auto.
    + replace (from - 1) with (Z.of_nat (Z.to_nat from) - 1) by lia. apply scan_back_ok; auto; lia.
Qed.

Lemma occurs_rev p s i : occurs (rev p) (rev s) i <-> occurs p s (zlen s - zlen p - i).
Proof.
  split; intros (a & b & E & L).
  - exists (rev b), (rev a). apply (f_equal (@rev Z)) in E. rewrite !rev_app_distr, !rev_involutive in E.
    rewrite <- app_assoc in E. split; auto. rewrite zlen_rev. rewrite E, !zlen_app, !zlen_rev. lia.
  - exists (rev b), (rev a). rewrite E, !rev_app_distr, <- app_assoc. split; auto.
    rewrite E, !zlen_app in L. rewrite zlen_rev. lia.
Qed.

Lemma last_in_rev_find p s r :
  str_find (rev p) (rev s) 0 = r ->
  last_in p s 0 (zlen s) (match r with None => -1 | Some f => zlen s - (f + zlen p) end).
Proof.
  intros <-. pose proof (str_find_spec (rev p) (rev s) 0 ltac:(lia)) as S.
  pose proof (zlen_nonneg p).
  destruct (str_find (rev p) (rev s) 0) as [f|].
  - destruct S as (A & B & C). left. apply occurs_rev in B.
    replace (zlen s - (f + zlen p)) with (zlen s - zlen p - f) by lia.
    pose proof (occurs_nonneg _ _ _ B). repeat split; auto; try lia.
    intros j Hj Ho. pose proof (occurs_nonneg _ _ _ Ho).
    apply (C (zlen s - zlen p - j)); [lia|]. apply occurs_rev.
    replace (zlen s - zlen p - (zlen s - zlen p - j)) with j by lia. auto.
  - right. split; auto. intros j Hj Ho. pose proof (occurs_nonneg _ _ _ Ho).
    apply (S (zlen s - zlen p - j)); [lia|]. apply occurs_rev.
    replace (zlen s - zlen p - (zlen s - zlen p - j)) with j by lia. auto.
Qed.

Lemma lastIndexOf_str_ok s p : last_in p s 0 (zlen s) (lastIndexOf_str s p).
Proof. unfold lastIndexOf_str. apply last_in_rev_find. reflexivity. Qed.

Lemma occurs_firstn p s n i : 0 <= n <= zlen s ->
  (occurs p (firstn (Z.to_nat n) s) i <-> occurs p s i /\ i + zlen p <= n).
Proof.
  intros Hn. split.
  - intros Ho. pose proof (occurs_nonneg _ _ _ Ho) as B. rewrite zlen_firstn in B by lia.
    split; [|lia]. destruct Ho as (a & b & E & L).
    exists a, (b ++ skipn (Z.to_nat n) s). split; auto.
    rewrite <- (firstn_skipn (Z.to_nat n) s) at 1. rewrite E, <- !app_assoc. reflexivity.
  - intros [(a & b & E & L) B]. exists a, (firstn (Z.to_nat n - length a - length p) b). split; auto.
    rewrite E, !firstn_app. rewrite firstn_all2 by (unfold zlen in *; lia).
    rewrite (firstn_all2 p) by (unfold zlen in *; lia). reflexivity.
Qed.

Lemma skipn_rev_firstn {A} (s : list A) n : 0 <= n <= zlen s ->
  skipn (Z.to_nat (zlen s - n)) (rev s) = rev (firstn (Z.to_nat n) s).
Proof.
  intros Hn. rewrite <- (firstn_skipn (Z.to_nat n) s) at 2. rewrite rev_app_distr.
  rewrite skipn_app. rewrite skipn_all2 by (rewrite rev_length, skipn_length; unfold zlen; lia).
  rewrite rev_length, skipn_length. replace (_ - _)%nat with 0%nat by (unfold zlen; lia). reflexivity.
Qed.

(** The exact behaviour of lastIndexOf(String, int). *)
Lemma lastIndexOf_str_from_ok s p from : s <> [] -> small s -> small p -> no_nul p ->
  exists r, lastIndexOf_str_from s p from = Ok r /\
   ((from < 0 -> r = -1) /\
    (zlen s <= from -> last_in p s 0 (zlen s) r) /\
    (0 <= from < zlen s -> from + zlen p <= zlen s -> last_in p s 0 from r) /\
    (0 <= from < zlen s -> zlen s < from + zlen p -> r = -1)).
Proof.
  intros Hs Hl Hlp Hz. unfold lastIndexOf_str_from. pose proof (zlen_nonneg s). pose proof (zlen_nonneg p).
  unfold small, int_max in *.
  destruct (from <? 0) eqn:E; [eexists; split; [reflexivity|]; repeat split; intros; try lia|].
  rewrite gt_size_nonempty by auto. destruct (zlen s <=? from) eqn:E2.
  { eexists; split; [reflexivity|]. repeat split; intros; try lia. apply lastIndexOf_str_ok. }
  destruct (Z.lt_ge_cases (zlen s) (from + zlen p)) as [Hc|Hc].
  - replace (zlen s <? uwrap 64 (zlen s - from - zlen p)) with true.
    { eexists; split; [reflexivity|]. repeat split; intros; lia. }
    symmetry. apply Z.ltb_lt. unfold uwrap.
    replace ((zlen s - from - zlen p) mod 2 ^ 64) with (zlen s - from - zlen p + 2 ^ 64); [lia|].
    apply (Z.mod_unique _ _ (-1)); lia.
  - rewrite uwrap_id by lia. replace (zlen s <? zlen s - from - zlen p) with false by lia.
    unfold str_substr. rewrite zlen_rev. replace (zlen s <? zlen s - from - zlen p) with false by lia.
    cbn [bind]. rewrite firstn_all2 by (rewrite skipn_length, rev_length; unfold zlen; lia).
    replace (zlen s - from - zlen p) with (zlen s - (from + zlen p)) by lia.
    rewrite skipn_rev_firstn by lia. rewrite cstr_id by auto.
    remember (firstn (Z.to_nat (from + zlen p)) s) as f.
    assert (Lf : zlen f = from + zlen p) by (subst; apply zlen_firstn; lia).
    pose proof (last_in_rev_find p f _ eq_refl) as L.
    assert (Tr : forall r, last_in p f 0 (zlen f) r -> last_in p s 0 from r).
    { subst f. intros r [(A & B & C)|(A & B)].
      - apply occurs_firstn in B; [|lia]. destruct B as [B1 B2]. left. repeat split; auto; try lia.
        intros j Hj Ho. apply (C j); [lia|]. apply occurs_firstn; [lia|]. split; auto; lia.
      - right. split; auto. intros j Hj Ho. apply (B j); [lia|]. apply occurs_firstn; [lia|]. split; auto; lia. }
    destruct (str_find (rev p) (rev f) 0) as [r|].
    + eexists; split; [reflexivity|]. repeat split; intros; try lia.
      apply Tr. rewrite Lf in L. replace (from - r) with (from + zlen p - (r + zlen p)) by lia.
      rewrite Lf; exact L.
    + eexists; split; [reflexivity|]. repeat split; intros; try lia. apply Tr; auto.
Qed.

Lemma starts_loop_spec s p : starts_loop s p = prefixb p s.
Proof.
  revert s; induction p as [|x p IH]; intros [|y s]; simpl; auto.
  rewrite IH. rewrite Z.eqb_sym. destruct (x =? y); auto.
Qed.
Lemma startsWith_ok s p : startsWith s p = true <-> occurs p s 0.
Proof.
  unfold startsWith. rewrite starts_loop_spec. destruct (zlen s <? zlen p) eqn:E.
  - split; [discriminate|]. intros H. apply occurs_nonneg in H. lia.
  - symmetry. apply occurs_0.
Qed.
Lemma startsWith_at_ok s p off : startsWith_at s p off = true <-> 0 <= off /\ occurs p s off.
Proof.
  unfold startsWith_at. rewrite starts_loop_spec. pose proof (zlen_nonneg p).
  destruct (off <? 0) eqn:E; [split; [discriminate|lia]|].
  destruct ((zlen s <? zlen p) || (zlen s - zlen p <? off)) eqn:E2.
  - split; [discriminate|]. intros [_ Ho]. apply occurs_nonneg in Ho. lia.
  - rewrite <- occurs_0, occurs_skipn by lia. rewrite Z.add_0_l. intuition lia.
Qed.

Lemma ends_loop_ok s p n : (n <= length p)%nat -> zlen p <= zlen s ->
  exists b, ends_loop s p (zlen s - zlen p) n = Ok b /\
   (b = true <-> forall k, 0 <= k < Z.of_nat n -> znth p k = znth s (zlen s - zlen p + k)).
Proof.
  intros Hn Hl. pose proof (zlen_nonneg p). induction n as [|k IH]; cbn [ends_loop].
  - exists true. split; auto. split; auto. intros _ k Hk. lia.
  - unfold str_get. destruct (znth_ex p (Z.of_nat k)) as [c Hc]; [unfold zlen; lia|].
    destruct (znth_ex s (zlen s - zlen p + Z.of_nat k)) as [d Hd]; [unfold zlen in *; lia|].
    rewrite Hc, Hd. cbn [bind]. destruct (Z.eqb_spec c d) as [->|Hne].
    + destruct (IH ltac:(lia)) as (b & -> & Hb). exists b. split; auto. rewrite Hb. split; intros G j Hj.
      * destruct (Z.eq_dec j (Z.of_nat k)) as [->|]; [congruence|]. apply G. lia.
      * apply G; lia.
    + exists false. split; auto. split; [discriminate|]. intros G. specialize (G (Z.of_nat k) ltac:(lia)). congruence.
Qed.

Lemma znth_ext {A} (l1 l2 : list A) : zlen l1 = zlen l2 ->
  (forall k, 0 <= k < zlen l1 -> znth l1 k = znth l2 k) -> l1 = l2.
Proof.
  revert l2; induction l1 as [|x l1 IH]; intros [|y l2] L H; auto.
  - znil; rewrite zlen_cons in L. pose proof (zlen_nonneg l2). lia.
  - znil; rewrite zlen_cons in L. pose proof (zlen_nonneg l1). lia.
  - rewrite !zlen_cons in *. pose proof (zlen_nonneg l1).
    assert (x = y). { specialize (H 0 ltac:(lia)). cbn in H. congruence. }
    subst. f_equal. apply IH; [lia|]. intros k Hk. specialize (H (k + 1) ltac:(lia)).
    rewrite !znth_nth in H by lia. replace (Z.to_nat (k + 1)) with (S (Z.to_nat k)) in H by lia.
    rewrite !znth_nth by lia. exact H.
Qed.

Lemma endsWith_ok s p : exists b, endsWith s p = Ok b /\ (b = true <-> exists a, s = a ++ p).
Proof.
  unfold endsWith. pose proof (zlen_nonneg p). destruct (zlen s <? zlen p) eqn:E.
  - exists false. split; auto. split; [discriminate|]. intros [a ->].
    rewrite zlen_app in E. pose proof (zlen_nonneg a). lia.
  - destruct (ends_loop_ok s p (length p) ltac:(lia) ltac:(lia)) as (b & -> & Hb).
    exists b. split; auto. rewrite Hb. split.
    + intros G. exists (firstn (Z.to_nat (zlen s - zlen p)) s).
      rewrite <- (firstn_skipn (Z.to_nat (zlen s - zlen p)) s) at 1. f_equal.
      apply znth_ext; [rewrite zlen_skipn; lia|].
      intros k Hk. rewrite zlen_skipn in Hk by lia. rewrite znth_skipn by lia.
      rewrite (G k) by (unfold zlen in *; lia). f_equal. lia.
    + intros [a ->] k Hk. rewrite zlen_app. replace (zlen a + zlen p - zlen p + k) with (zlen a + k) by lia.
      pose proof (zlen_nonneg a). rewrite !znth_nth by lia.
      rewrite nth_error_app2 by (unfold zlen; lia). f_equal. unfold zlen. lia.
Qed.
