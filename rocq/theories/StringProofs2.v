From Coq Require Import ZArith List Lia Bool.
From Verif Require Import Base Bits CppText TextSpec TextLemmas StringModel StringSpec StringProofs.
Import ListNotations.
Open Scope Z_scope.

Lemma skipn_skipn' {A} (l : list A) a b : skipn a (skipn b l) = skipn (b + a) l.
Proof. revert l; induction b as [|b IH]; intros l; [reflexivity|]. destruct l; simpl; [apply skipn_nil|apply IH]. Qed.

Lemma zlen_pos {A} (l : list A) : l <> [] -> 0 < zlen l.
Proof. destruct l; [congruence|]. intros _. rewrite zlen_cons. pose proof (zlen_nonneg l). lia. Qed.

(** Decomposition of the rest of the string at the occurrence found. *)
Lemma find_split t s pos p : 0 <= pos <= zlen s -> str_find t s pos = Some p ->
  pos <= p /\ p + zlen t <= zlen s /\
  skipn (Z.to_nat pos) s =
    firstn (Z.to_nat (p - pos)) (skipn (Z.to_nat pos) s) ++ t ++ skipn (Z.to_nat (p + zlen t)) s /\
  forall i, i < zlen (firstn (Z.to_nat (p - pos)) (skipn (Z.to_nat pos) s)) ->
     ~ occurs t (skipn (Z.to_nat pos) s) i.
Proof.
  intros Hp F. pose proof (str_find_spec t s pos ltac:(lia)) as S. rewrite F in S.
  destruct S as (A & (u & v & E & L) & C). subst s.
  pose proof (zlen_nonneg t) as Ht. pose proof (zlen_nonneg v) as Hv.
  rewrite !zlen_app in *. repeat split; try lia.
  - rewrite skipn_app. replace (Z.to_nat pos - length u)%nat with 0%nat by (unfold zlen in *; lia).
    cbn [skipn]. rewrite firstn_app.
    rewrite (firstn_all2 (skipn (Z.to_nat pos) u)) by (rewrite skipn_length; unfold zlen in *; lia).
    rewrite skipn_length. replace (Z.to_nat (p - pos) - (length u - Z.to_nat pos))%nat with 0%nat
      by (unfold zlen in *; lia). cbn [firstn]. rewrite app_nil_r.
    f_equal. f_equal. rewrite app_assoc, skipn_app.
    rewrite skipn_all2 by (rewrite app_length; unfold zlen in *; lia).
    rewrite app_length. replace (_ - _)%nat with 0%nat by (unfold zlen in *; lia). reflexivity.
  - intros i Hi Ho. pose proof (occurs_nonneg _ _ _ Ho). rewrite zlen_firstn in Hi.
    2:{ rewrite zlen_skipn; rewrite ?zlen_app; lia. }
    rewrite occurs_skipn in Ho by (rewrite ?zlen_app; lia). apply (C (i + pos)); auto; lia.
Qed.

Lemma find_none t s pos : 0 <= pos <= zlen s -> str_find t s pos = None ->
  forall i, ~ occurs t (skipn (Z.to_nat pos) s) i.
Proof.
  intros Hp F i Ho. pose proof (str_find_spec t s pos ltac:(lia)) as S. rewrite F in S.
  pose proof (occurs_nonneg _ _ _ Ho). rewrite occurs_skipn in Ho by lia. apply (S (i + pos)); auto; lia.
Qed.

Lemma replace_loop_ok s t r : t <> [] -> forall fuel pos acc, 0 <= pos <= zlen s ->
  zlen s - pos < Z.of_nat fuel ->
  exists pre res, replace_loop fuel s t r pos pos acc = Ok (pre, acc ++ res) /\
    replaced t r (skipn (Z.to_nat pos) s) (res ++ skipn (Z.to_nat pre) s).
Proof.
  intros Ht. pose proof (zlen_pos t Ht). induction fuel as [|k IH]; intros pos acc Hp Hf; [lia|].
  cbn [replace_loop]. destruct (str_find t s pos) as [p|] eqn:F.
  - destruct (find_split t s pos p Hp F) as (A & B & E & C).
    replace (Z.max pos p) with p by lia.
    destruct (IH (p + zlen t)
      (acc ++ firstn (Z.to_nat (p - pos)) (skipn (Z.to_nat pos) s) ++ r)
      ltac:(lia) ltac:(lia)) as (pre & res & -> & R).
    eexists pre, _. split; [rewrite <- app_assoc; reflexivity|].
    rewrite <- !app_assoc. set (a := firstn _ _) in *.
    rewrite E. rewrite E in C. apply replaced_step; auto.
  - exists pos, []. rewrite app_nil_r. split; auto. apply replaced_done. apply find_none; auto.
Qed.

Lemma replace_seq_ok s t r fuel : t <> [] -> zlen s < Z.of_nat fuel ->
  exists s', replace_seq fuel s t r = Ok s' /\ replaced t r s s'.
Proof.
  intros Ht Hf. unfold replace_seq. pose proof (zlen_nonneg s).
  destruct (replace_loop_ok s t r Ht fuel 0 [] ltac:(lia) ltac:(lia)) as (pre & res & -> & R).
  cbn [bind app]. eexists; split; [reflexivity|]. exact R.
Qed.

Lemma str_find_nil s pos : 0 <= pos <= zlen s -> str_find [] s pos = Some pos.
Proof.
  intros H. unfold str_find. replace (zlen s <? pos) with false by lia.
  destruct (skipn (Z.to_nat pos) s); reflexivity.
Qed.

Lemma replace_loop_diverges s r : forall fuel pos pre acc, 0 <= pos <= zlen s ->
  replace_loop fuel s [] r pos pre acc = OutOfFuel.
Proof.
  induction fuel as [|k IH]; intros pos pre acc Hp; [reflexivity|].
  cbn [replace_loop]. rewrite str_find_nil by auto. znil. rewrite !Z.add_0_r. apply IH; auto.
Qed.
Lemma replace_seq_diverges s r fuel : replace_seq fuel s [] r = OutOfFuel.
Proof.
  unfold replace_seq. rewrite replace_loop_diverges; [reflexivity|]. pose proof (zlen_nonneg s). lia.
Qed.

Lemma replaced_fun t r s x y : t <> [] -> replaced t r s x -> replaced t r s y -> x = y.
Proof.
  intros Ht R. revert y. induction R as [s N|a b b' C R IH]; intros y Q.
  - inversion Q as [|a b b' C R Es]; subst; auto. exfalso. apply (N (zlen a)). exists a, b; auto.
  - remember (a ++ t ++ b) as s eqn:Es. destruct Q as [s N|a2 b2 b2' C2 R2].
    + exfalso. apply (N (zlen a)). exists a, b; auto.
    + assert (L : zlen a = zlen a2).
      { destruct (Z.lt_trichotomy (zlen a) (zlen a2)) as [G|[G|G]]; auto; exfalso.
        - apply (C2 (zlen a)); auto. exists a, b; auto.
        - apply (C (zlen a2)); auto. exists a2, b2. auto. }
      destruct (app_eq_len a2 a (t ++ b2) (t ++ b)) as [-> E2]; [unfold zlen in L; lia|auto|].
      apply app_inv_head in E2. subst. f_equal. f_equal. apply IH; auto.
Qed.

(** split *)
Lemma split_loop_ok s t : t <> [] -> forall fuel pos acc, 0 <= pos <= zlen s ->
  zlen s - pos < Z.of_nat fuel ->
  exists pre l, split_loop fuel s t pos pos acc = Ok (pre, acc ++ l) /\
    splits t (skipn (Z.to_nat pos) s) (l ++ [skipn (Z.to_nat pre) s]).
Proof.
  intros Ht. pose proof (zlen_pos t Ht). induction fuel as [|k IH]; intros pos acc Hp Hf; [lia|].
  cbn [split_loop]. destruct (str_find t s pos) as [p|] eqn:F.
  - destruct (find_split t s pos p Hp F) as (A & B & E & C).
    replace (Z.max pos p) with p by lia.
    destruct (IH (p + zlen t)
      (acc ++ [firstn (Z.to_nat (p - pos)) (skipn (Z.to_nat pos) s)])
      ltac:(lia) ltac:(lia)) as (pre & res & -> & R).
    eexists pre, _. split; [rewrite <- app_assoc; reflexivity|].
    rewrite <- !app_assoc. set (a := firstn _ _) in *.
    rewrite E. rewrite E in C. apply splits_step; auto.
  - exists pos, []. rewrite app_nil_r. split; auto. apply splits_done. apply find_none; auto.
Qed.
Lemma split_ok s t fuel : t <> [] -> zlen s < Z.of_nat fuel ->
  exists l, split fuel s t = Ok l /\ splits t s l.
Proof.
  intros Ht Hf. unfold split. pose proof (zlen_nonneg s).
  destruct (split_loop_ok s t Ht fuel 0 [] ltac:(lia) ltac:(lia)) as (pre & res & -> & R).
  cbn [bind app]. eexists; split; [reflexivity|]. exact R.
Qed.
Lemma split_loop_diverges s : forall fuel pos pre acc, 0 <= pos <= zlen s ->
  split_loop fuel s [] pos pre acc = OutOfFuel.
Proof.
  induction fuel as [|k IH]; intros pos pre acc Hp; [reflexivity|].
  cbn [split_loop]. rewrite str_find_nil by auto. znil. rewrite !Z.add_0_r. apply IH; auto.
Qed.
Lemma split_diverges s fuel : split fuel s [] = OutOfFuel.
Proof.
  unfold split. rewrite split_loop_diverges; [reflexivity|]. pose proof (zlen_nonneg s). lia.
Qed.
Lemma splits_nonempty t s l : splits t s l -> l <> [].
Proof. destruct 1; discriminate. Qed.
Lemma splits_joined t s l : splits t s l -> joined t l = s.
Proof.
  induction 1 as [s N|a b l C H IH]; [reflexivity|].
  cbn [joined]. destruct l as [|x l]; [exfalso; eapply splits_nonempty; eauto|].
  now rewrite IH.
Qed.
(** No piece contains the separator. *)
Lemma splits_pieces t s l : t <> [] -> splits t s l -> Forall (fun x => forall i, ~ occurs t x i) l.
Proof.
  intros Ht. pose proof (zlen_pos t Ht). induction 1 as [s N|a b l C H2 IH]; constructor; auto.
  intros i (u & v & E & L). pose proof (zlen_nonneg v).
  apply (C i).
  - rewrite E, !zlen_app. pose proof (zlen_nonneg u). lia.
  - subst a. exists u, (v ++ t ++ b). rewrite <- !app_assoc. auto.
Qed.

Lemma glue_joined sep l : glue sep l = joined sep l.
Proof. reflexivity. Qed.
Lemma join_joined sep l : join sep l = joined sep l.
Proof. reflexivity. Qed.

Lemma joined_app sep l1 l2 : l1 <> [] -> l2 <> [] ->
  joined sep (l1 ++ l2) = joined sep l1 ++ sep ++ joined sep l2.
Proof.
  intros N1 N2. induction l1 as [|x l1 IH]; [congruence|].
  destruct l1 as [|y l1].
  - destruct l2; [congruence|]. reflexivity.
  - change ((x :: y :: l1) ++ l2) with (x :: y :: (l1 ++ l2)).
    change (joined sep (x :: y :: l1 ++ l2)) with (x ++ sep ++ joined sep ((y :: l1) ++ l2)).
    rewrite IH by discriminate. change (joined sep (x :: y :: l1)) with (x ++ sep ++ joined sep (y :: l1)).
    rewrite <- !app_assoc. reflexivity.
Qed.

Lemma split_limit_ok s t limit fuel : t <> [] -> zlen s < Z.of_nat fuel ->
  exists l, split_limit fuel s t limit = Ok l /\ joined t l = s /\ (0 < limit -> zlen l <= limit).
Proof.
  intros Ht Hf. destruct (split_ok s t fuel Ht Hf) as (l & E & S). unfold split_limit. rewrite E. cbn [bind].
  pose proof (splits_joined _ _ _ S). pose proof (splits_nonempty _ _ _ S) as N.
  destruct (Z.eqb_spec limit 1) as [->|].
  { eexists; split; [reflexivity|]. split; [reflexivity|]. intros; cbn; lia. }
  destruct ((zlen l <? limit) || (limit <=? 0)) eqn:E2.
  { eexists; split; [reflexivity|]. split; auto. lia. }
  eexists; split; [reflexivity|].
  assert (L1 : zlen (firstn (Z.to_nat (limit - 1)) l) = limit - 1) by (apply zlen_firstn; lia).
  assert (L2 : zlen (skipn (Z.to_nat (limit - 1)) l) = zlen l - (limit - 1)) by (apply zlen_skipn; lia).
  split.
  - rewrite joined_app; [| |discriminate].
    + cbn [joined]. change glue with joined.
      rewrite <- joined_app; [now rewrite firstn_skipn| |].
      * intros Q. rewrite Q in L1. znil. lia.
      * intros Q. rewrite Q in L2. znil. lia.
    + intros Q. rewrite Q in L1. znil. lia.
  - intros _. rewrite zlen_app, L1. cbn. lia.
Qed.

(** replaceFirst *)
Lemma replaceFirst_ok s t r fuel a b : t <> [] -> small s -> zlen s < Z.of_nat fuel ->
  s = a ++ t ++ b -> (forall i, i < zlen a -> ~ occurs t s i) -> b <> [] ->
  replaceFirst fuel s t r = Ok (a ++ r ++ b).
Proof.
  intros Ht Hl Hf E C Hb. unfold replaceFirst.
  pose proof (zlen_pos t Ht). pose proof (zlen_pos b Hb). pose proof (zlen_nonneg a).
  assert (I : indexOf_str s t = zlen a).
  { destruct (indexOf_str_ok s t Ht) as [(A & B & D)|(A & B)].
    - destruct (Z.lt_trichotomy (indexOf_str s t) (zlen a)) as [G|[G|G]]; auto; exfalso.
      + apply (C (indexOf_str s t)); auto.
      + apply (D (zlen a)); [lia|]. exists a, b; auto.
    - exfalso. apply (B (zlen a)); [rewrite E, !zlen_app; lia|]. exists a, b; auto. }
  rewrite I. assert (Ls : zlen s = zlen a + zlen t + zlen b) by (rewrite E, !zlen_app; lia).
  destruct (subString_in s 0 (zlen a + zlen t) ltac:(lia) ltac:(lia)) as (f & -> & Hs). cbn [bind].
  assert (f = a ++ t).
  { apply (is_slice_fun s 0 (zlen a + zlen t)); auto. exists [], b. rewrite zlen_app. znil.
    rewrite <- app_assoc. cbn; auto. }
  subst f. rewrite getStringFromIndex_in by (auto; lia). cbn [bind].
  assert (Es : skipn (Z.to_nat (zlen a + zlen t)) s = b).
  { rewrite E, app_assoc, skipn_app. rewrite skipn_all2 by (rewrite app_length; unfold zlen; lia).
    rewrite app_length. replace (_ - _)%nat with 0%nat by (unfold zlen; lia). reflexivity. }
  rewrite Es.
  destruct (replace_seq_ok (a ++ t) t r fuel Ht) as (s' & -> & R); [rewrite zlen_app; lia|]. cbn [bind].
  assert (s' = a ++ r ++ []).
  { apply (replaced_fun t r (a ++ t)); auto.
    rewrite <- (app_nil_r (a ++ t)), <- app_assoc. apply replaced_step.
    - intros i Hi Ho. apply (C i Hi). destruct Ho as (u & v & Eu & L).
      exists u, (v ++ b). split; auto. rewrite E.
      rewrite app_nil_r in Eu. rewrite app_assoc, Eu, <- !app_assoc. reflexivity.
    - apply replaced_done. intros i Ho. apply occurs_nonneg in Ho. znil. lia. }
  subst s'. rewrite app_nil_r, <- app_assoc. reflexivity.
Qed.
Lemma replaceFirst_at_end s t r fuel a : t <> [] -> small s ->
  s = a ++ t -> (forall i, i < zlen a -> ~ occurs t s i) ->
  replaceFirst fuel s t r = Throw StringIndexOutOfBoundsException.
Proof.
  intros Ht Hl E C. unfold replaceFirst.
  pose proof (zlen_pos t Ht). pose proof (zlen_nonneg a).
  assert (Oa : occurs t s (zlen a)) by (exists a, []; rewrite app_nil_r; auto).
  assert (Ls : zlen s = zlen a + zlen t) by (rewrite E, !zlen_app; lia).
  assert (I : indexOf_str s t = zlen a).
  { destruct (indexOf_str_ok s t Ht) as [(A & B & D)|(A & B)].
    - destruct (Z.lt_trichotomy (indexOf_str s t) (zlen a)) as [G|[G|G]]; auto; exfalso.
      + apply (C (indexOf_str s t)); auto.
      + apply (D (zlen a)); [lia|]. auto.
    - exfalso. apply (B (zlen a)); auto. lia. }
  rewrite I. destruct (subString_in s 0 (zlen a + zlen t) ltac:(lia) ltac:(lia)) as (f & -> & Hs). cbn [bind].
  rewrite getStringFromIndex_out; auto; [|lia]. intros ->. znil. lia.
Qed.

(** trim *)
Lemma drop_blanks_spec s : exists a, s = a ++ drop_blanks s /\ Forall (fun c => c = 32) a /\
  (drop_blanks s <> [] -> hd 0 (drop_blanks s) <> 32).
Proof.
  induction s as [|c s (a & E & F & N)]; [exists []; auto|].
  cbn [drop_blanks]. destruct (Z.eqb_spec c 32) as [->|Hc].
  - exists (32 :: a). cbn. rewrite <- E. auto.
  - exists []. cbn. auto.
Qed.
Lemma Forall_blank_drop s : Forall (fun c => c = 32) s -> drop_blanks s = [].
Proof. induction 1 as [|c s -> F IH]; auto. Qed.
Lemma drop_blanks_app a t : Forall (fun c => c = 32) a -> t <> [] -> hd 0 t <> 32 ->
  drop_blanks (a ++ t) = t.
Proof.
  intros F N H. induction F as [|c a -> F IH]; [|exact IH].
  destruct t as [|c t]; [congruence|]. cbn in *. destruct (Z.eqb_spec c 32); [contradiction|reflexivity].
Qed.
Lemma trim_ok s : exists t, trim s = Ok t /\ trimmed s t.
Proof.
  unfold trim. destruct (drop_blanks_spec s) as (a & E & F & N).
  destruct (drop_blanks s) as [|c d] eqn:D.
  - exists []. split; auto. exists a, []. rewrite app_nil_r in *. cbn. split; auto.
  - rewrite <- D in *. destruct (drop_blanks_spec (rev s)) as (b & E' & F' & N').
    destruct (drop_blanks (rev s)) as [|c' d'] eqn:D'.
    { exfalso. rewrite app_nil_r in E'. apply (f_equal (@rev Z)) in E'. rewrite rev_involutive in E'.
      assert (Forall (fun c => c = 32) s) by (rewrite E'; apply Forall_rev; auto).
      apply Forall_blank_drop in H. congruence. }
    rewrite <- D' in *. set (x := drop_blanks s) in *. set (y := drop_blanks (rev s)) in *.
    assert (Es : s = rev y ++ rev b).
    { apply (f_equal (@rev Z)) in E'. rewrite rev_involutive, rev_app_distr in E'. auto. }
    assert (Hx : x <> []) by congruence. assert (Hy : y <> []) by congruence.
    specialize (N Hx). specialize (N' Hy).
    assert (Hrb : Forall (fun c => c = 32) (rev b)) by (apply Forall_rev; auto).
    (* a is shorter than rev y *)
    assert (La : zlen a < zlen (rev y)).
    { destruct (Z.lt_ge_cases (zlen a) (zlen (rev y))) as [|G]; auto. exfalso.
      assert (Px : exists p, x = p /\ Forall (fun c => c = 32) p).
      { exists (skipn (length a) s). split.
        - rewrite E at 1. rewrite skipn_app, skipn_all, Nat.sub_diag. reflexivity.
        - rewrite Es, skipn_app. rewrite skipn_all2 by (unfold zlen in G; lia). cbn.
          apply Forall_forall. intros z Hz.
          rewrite Forall_forall in Hrb. apply Hrb. rewrite <- (firstn_skipn (length a - length (rev y)) (rev b)).
          apply in_or_app. auto. }
      destruct Px as (p & -> & Fp). destruct p as [|h p]; [congruence|].
      inversion Fp; subst. cbn in N. congruence. }
    pose proof (zlen_nonneg a).
    assert (Lb : zlen s = zlen y + zlen b) by (rewrite Es, zlen_app, !zlen_rev; auto).
    assert (Lx : zlen s = zlen a + zlen x) by (rewrite E at 1; apply zlen_app).
    rewrite zlen_rev in La.
    replace (zlen s - zlen x) with (zlen a) by lia.
    unfold str_substr. pose proof (zlen_nonneg b). replace (zlen s <? zlen a) with false by lia.
    eexists; split; [reflexivity|].
    set (t := firstn _ _).
    assert (Lt : zlen t = zlen y - zlen a).
    { subst t. rewrite zlen_firstn; [lia|]. rewrite zlen_skipn by lia. lia. }
    assert (Et : s = a ++ t ++ rev b).
    { assert (Sk : skipn (Z.to_nat (zlen a)) s = x).
      { rewrite E at 1. rewrite skipn_app. replace (Z.to_nat (zlen a)) with (length a) by (unfold zlen; lia).
        rewrite skipn_all, Nat.sub_diag. reflexivity. }
      assert (Ty : rev y = a ++ t).
      { subst t. replace (Z.to_nat (zlen y - 1 - zlen a + 1)) with (Z.to_nat (zlen y - zlen a)) by lia.
        rewrite Es, skipn_app. replace (Z.to_nat (zlen a) - length (rev y))%nat with 0%nat
          by (rewrite rev_length; unfold zlen in *; lia). cbn [skipn].
        rewrite firstn_app. rewrite firstn_all2 by (rewrite skipn_length, rev_length; unfold zlen; lia).
        rewrite skipn_length, rev_length.
        replace (Z.to_nat (zlen y - zlen a) - (length y - Z.to_nat (zlen a)))%nat with 0%nat by (unfold zlen; lia).
        cbn [firstn]. rewrite app_nil_r.
        rewrite <- (firstn_skipn (Z.to_nat (zlen a)) (rev y)) at 1. f_equal.
        assert (firstn (Z.to_nat (zlen a)) s = a).
        { rewrite E. rewrite firstn_app. replace (Z.to_nat (zlen a)) with (length a) by (unfold zlen; lia).
          rewrite firstn_all, Nat.sub_diag. cbn. apply app_nil_r. }
        rewrite <- H1 at 2. rewrite Es, firstn_app.
        replace (Z.to_nat (zlen a) - length (rev y))%nat with 0%nat by (rewrite rev_length; unfold zlen in *; lia).
        cbn. rewrite app_nil_r. reflexivity. }
      rewrite Es, Ty, <- app_assoc. reflexivity. }
    exists a, (rev b). split; auto. split; auto. split; auto.
    intros Ht. split.
    + assert (x = t ++ rev b).
      { rewrite Et in E at 1. apply app_inv_head in E. auto. }
      destruct t; [congruence|]. cbn. rewrite H1 in N. exact N.
    + assert (Ty : rev y = a ++ t).
      { rewrite Es in Et at 1. rewrite app_assoc in Et. apply app_inv_tail in Et. auto. }
      destruct (exists_last Ht) as (t' & z & Ez). rewrite Ez, last_last.
      assert (y = rev (a ++ t)) by (rewrite <- Ty, rev_involutive; auto).
      rewrite Ez, app_assoc, rev_app_distr in H1. rewrite H1 in N'. exact N'.
Qed.

(** comparison *)
Lemma bytes_cmp_spec a b :
  (bytes_cmp a b = 0 <-> a = b) /\ (bytes_cmp a b < 0 <-> lex_lt a b) /\ (0 < bytes_cmp a b <-> lex_lt b a).
Proof.
  revert b; induction a as [|x a IH]; intros [|y b]; cbn [bytes_cmp].
  - repeat split; intros; try lia; auto; try (inversion H).
  - repeat split; intros; try lia; try discriminate; try constructor. inversion H.
  - repeat split; intros; try lia; try discriminate; try constructor. inversion H.
  - destruct (Z.ltb_spec x y).
    { repeat split; intros; try lia.
      - inversion H0; lia.
      - constructor; auto.
      - inversion H0; subst; lia. }
    destruct (Z.ltb_spec y x).
    { repeat split; intros; try lia.
      - inversion H1; lia.
      - inversion H1; subst; lia.
      - constructor; auto. }
    assert (x = y) by lia. subst y. destruct (IH b) as (A & B & C). rewrite A, B, C.
    repeat split; intros.
    + congruence.
    + congruence.
    + apply lex_tail; auto.
    + inversion H1; subst; auto; lia.
    + apply lex_tail; auto.
    + inversion H1; subst; auto; lia.
Qed.
Lemma compareTo_ok a b : no_nul a -> no_nul b ->
  (compareTo a b = 0 <-> a = b) /\ (compareTo a b < 0 <-> lex_lt a b) /\ (0 < compareTo a b <-> lex_lt b a).
Proof. intros Ha Hb. unfold compareTo, strcmp. rewrite !cstr_id by auto. apply bytes_cmp_spec. Qed.
Lemma lex_lt_irrefl a : ~ lex_lt a a.
Proof. intros H. destruct (bytes_cmp_spec a a) as (A & B & _). apply B in H. assert (bytes_cmp a a = 0) by tauto. lia. Qed.
Lemma lex_lt_trans a b c : lex_lt a b -> lex_lt b c -> lex_lt a c.
Proof.
  intros H. revert c. induction H as [x t|x y s t Hl|x s t H IH]; intros c Q; inversion Q; subst;
    try (apply lex_nil); try (apply lex_head; lia); try (apply lex_tail; auto).
Qed.

Lemma equals_ok a b : equals a b = true <-> a = b.
Proof. apply str_eqb_eq. Qed.

Lemma equalsIgnoreCase_ok a b : no_nul a -> no_nul b ->
  equalsIgnoreCase a b = true <-> map c_tolower a = map c_tolower b.
Proof.
  intros Ha Hb. unfold equalsIgnoreCase, compareToIgnoreCase, strcasecmp. rewrite !cstr_id by auto.
  rewrite Z.eqb_eq. apply bytes_cmp_spec.
Qed.

(** region matching *)
Lemma no_nul_slice s i j t : no_nul s -> is_slice s i j t -> no_nul t.
Proof.
  intros H (a & b & -> & _). unfold no_nul in *. rewrite !Forall_app in H. tauto.
Qed.
Lemma regionMatches_ok m s o other p len : no_nul s -> no_nul other -> small s -> small other ->
  0 <= len -> 0 <= o -> 0 <= p -> o + len <= zlen s -> p + len <= zlen other ->
  exists t u, is_slice s o (o + len) t /\ is_slice other p (p + len) u /\
    exists r, regionMatches m false s o other p len = Ok r /\ (r = true <-> t = u).
Proof.
  intros Hs Ho Ls Lo Hl H1 H2 H3 H4.
  destruct (subString_in s o (o + len) ltac:(lia) H3) as (t & E1 & S1).
  destruct (subString_in other p (p + len) ltac:(lia) H4) as (u & E2 & S2).
  exists t, u. split; auto. split; auto. unfold regionMatches, sadd, small, int_max in *.
  rewrite !sres_ok by (unfold in_s, smin, smax; simpl; lia). cbn [bind]. rewrite E1, E2. cbn [bind].
  eexists; split; [reflexivity|]. rewrite Z.eqb_eq.
  apply compareTo_ok; [exact (no_nul_slice _ _ _ _ Hs S1) | exact (no_nul_slice _ _ _ _ Ho S2)].
Qed.

(** ** Hash *)
Lemma hash_loop_HW l h : in_s 32 h -> hash_loop HW l h = Ok (wrap 32 (h * 31 ^ zlen l + poly31 l)).
Proof.
  revert h; induction l as [|c l IH]; intros h Hh; cbn [hash_loop poly31].
  - znil. change (31 ^ 0) with 1. rewrite Z.mul_1_r, Z.add_0_r, wrap_id by (auto; lia). reflexivity.
  - unfold smul, sadd. rewrite sres_HW by lia. cbn [bind]. rewrite sres_HW by lia. cbn [bind].
    rewrite IH by (apply wrap_range; lia). f_equal. apply wrap_eq_mod; [lia|].
    rewrite zlen_cons, Z.pow_add_r by (pose proof (zlen_nonneg l); lia). change (31 ^ 1) with 31.
    set (P := 31 ^ zlen l). set (K := 2 ^ 32).
    rewrite <- (Zplus_mod_idemp_l (wrap 32 _ * P)), <- (Zmult_mod_idemp_l (wrap 32 _)).
    unfold K. rewrite wrap_mod by lia. rewrite <- (Zplus_mod_idemp_l (wrap 32 _)), wrap_mod by lia.
    rewrite (Zplus_mod_idemp_l (31 * h)), Zmult_mod_idemp_l, Zplus_mod_idemp_l. f_equal. lia.
Qed.

Lemma hashCode_cache_inv o : hash o = 0 \/ hash o = hash31 (original o) ->
  exists o', hashCode HW o = Ok (hash31 (original o), o') /\ original o' = original o /\
    (hash o' = 0 \/ hash o' = hash31 (original o')).
Proof.
  intros H. unfold hashCode. destruct ((hash o =? 0) && (0 <? zlen (original o))) eqn:E.
  - rewrite hash_loop_HW by (unfold in_s, smin, smax; simpl; lia). cbn [bind].
    replace (0 * 31 ^ zlen (original o) + poly31 (original o)) with (poly31 (original o)) by lia.
    fold (hash31 (original o)). eexists; split; [reflexivity|]. cbn. auto.
  - exists o. assert (Hh : hash o = hash31 (original o)).
    { destruct H as [H|H]; auto. rewrite H.
      assert (zlen (original o) = 0) by (pose proof (zlen_nonneg (original o)); lia).
      apply zlen_0 in H0. rewrite H0. reflexivity. }
    rewrite <- Hh. auto.
Qed.

(** Any number of hashCode() calls on an object that is not mutated. *)
Lemma hash_calls n s : exists o, mutate_all HW (new_string s) (repeat CallHash n) = Ok o /\
  exists o', hashCode HW o = Ok (hash31 s, o').
Proof.
  assert (G : forall o, original o = s -> (hash o = 0 \/ hash o = hash31 (original o)) ->
    exists o2, mutate_all HW o (repeat CallHash n) = Ok o2 /\ original o2 = s /\
      (hash o2 = 0 \/ hash o2 = hash31 (original o2))).
  { induction n as [|n IH]; intros o Ho Hh; cbn [repeat mutate_all].
    - eauto.
    - cbn [mutate]. destruct (hashCode_cache_inv o Hh) as (o1 & -> & A & B). cbn [bind].
      apply IH; auto. congruence. }
  destruct (G (new_string s)) as (o & E & A & B); [reflexivity|auto|].
  exists o. split; auto. destruct (hashCode_cache_inv o B) as (o' & E' & _). exists o'. congruence.
Qed.

(** Mutations before the first hashCode() call. *)
Definition not_hash (u : mutation) : Prop := match u with CallHash => False | _ => True end.
Lemma mutate_before_hash us : forall o o', Forall not_hash us -> hash o = 0 ->
  mutate_all HW o us = Ok o' -> hash o' = 0.
Proof.
  induction us as [|u us IH]; intros o o' F H E; cbn [mutate_all] in E.
  - congruence.
  - inversion F; subst. destruct u as [t|t|i c|]; cbn [mutate bind] in E; try contradiction.
    + apply (IH _ _ H3) in E; auto.
    + apply (IH _ _ H3) in E; auto.
    + destruct (raw_set (original o) i c) as [t| | |]; cbn [bind] in E; try discriminate.
      apply (IH _ _ H3) in E; auto.
Qed.

(** ** getChars *)
Lemma zupd_same {A} (l : list A) i c : znth l i = Some c -> zupd l i c = l.
Proof.
  intros H. pose proof (znth_Some_lt _ _ _ H). apply znth_ext; [apply zupd_len|].
  intros k Hk. rewrite znth_zupd by auto. destruct (Z.eqb_spec k i) as [->|]; auto.
Qed.

Lemma getChars_loop_ok s db len sb : small s -> 0 <= sb -> 0 <= db -> 0 <= len -> sb + len <= zlen s ->
  forall n index dst, 0 <= index -> index + Z.of_nat n = db + len -> db + len <= zlen dst ->
  exists dst', getChars_loop n s index db len (sb + Z.max 0 (index - db)) dst = Ok dst' /\
    zlen dst' = zlen dst /\
    forall k, 0 <= k < zlen dst -> znth dst' k =
      if (Z.max index db <=? k) && (k <? db + len) then znth s (sb + (k - db)) else znth dst k.
Proof.
  intros Hs Hsb Hdb Hlen Hsl. induction n as [|n IH]; intros index dst Hi Hn Hd; cbn [getChars_loop].
  - exists dst. split; auto. split; auto. intros k Hk.
    replace ((Z.max index db <=? k) && (k <? db + len)) with false by lia. reflexivity.
  - destruct ((db <=? index) && (index <? db + len)) eqn:E.
    + replace (sb + Z.max 0 (index - db)) with (sb + (index - db)) by lia.
      destruct (charAt_in s (sb + (index - db)) ltac:(lia) Hs) as (c & Hc & ->). cbn [bind].
      rewrite at_set_ok by lia. cbn [bind].
      specialize (IH (index + 1) (zupd dst index c) ltac:(lia) ltac:(lia)).
      rewrite zupd_len in IH. specialize (IH Hd).
      replace (sb + Z.max 0 (index + 1 - db)) with (sb + (index - db) + 1) in IH by lia.
      destruct IH as (d' & -> & L & V). exists d'. split; auto. split; auto.
      intros k Hk. rewrite V by auto. rewrite znth_zupd by lia.
      destruct (Z.eqb_spec k index) as [->|Hne].
      * replace ((Z.max (index + 1) db <=? index) && (index <? db + len)) with false by lia.
        replace ((Z.max index db <=? index) && (index <? db + len)) with true by lia. congruence.
      * replace (Z.max (index + 1) db <=? k) with (Z.max index db <=? k) by lia. reflexivity.
    + destruct (at_ok dst index ltac:(lia)) as (c & Hc & ->). cbn [bind].
      rewrite at_set_ok by lia. cbn [bind]. rewrite zupd_same by auto.
      specialize (IH (index + 1) dst ltac:(lia) ltac:(lia) Hd).
      replace (sb + Z.max 0 (index + 1 - db)) with (sb + Z.max 0 (index - db)) in IH by lia.
      destruct IH as (d' & -> & L & V). exists d'. split; auto. split; auto.
      intros k Hk. rewrite V by auto.
      replace (Z.max (index + 1) db) with (Z.max index db) by lia. reflexivity.
Qed.

Lemma getChars_ok m s sb se dst db : small s -> small dst ->
  0 <= sb <= se -> se <= zlen s -> 0 <= db -> db + (se - sb) <= zlen dst ->
  exists dst', getChars m s sb se dst db = Ok dst' /\ zlen dst' = zlen dst /\
    forall k, 0 <= k < zlen dst -> znth dst' k =
      if (db <=? k) && (k <? db + (se - sb)) then znth s (sb + (k - db)) else znth dst k.
Proof.
  intros Hs Hd H1 H2 H3 H4. unfold getChars, small, int_max in *.
  replace (sb <? 0) with false by lia. replace (se <? sb) with false by lia.
  replace (zlen s <? se) with false by lia. replace (db <? 0) with false by lia.
  unfold sadd. rewrite sres_ok by (unfold in_s, smin, smax; simpl; lia). cbn [bind].
  replace (zlen dst <? db + (se - sb)) with false by lia.
  destruct (getChars_loop_ok s db (se - sb) sb Hs ltac:(lia) ltac:(lia) ltac:(lia) ltac:(lia)
     (Z.to_nat (db + (se - sb))) 0 dst ltac:(lia) ltac:(lia) ltac:(lia)) as (d' & E & L & V).
  replace (sb + Z.max 0 (0 - db)) with sb in E by lia. exists d'. split; auto. split; auto.
  intros k Hk. rewrite V by auto. replace (Z.max 0 db) with db by lia. reflexivity.
Qed.

Lemma getChars_throws m s sb se dst db : is_int db -> is_int sb -> is_int se -> small s -> small dst ->
  ~ (0 <= sb <= se /\ se <= zlen s /\ 0 <= db /\ db + (se - sb) <= zlen dst) ->
  getChars m s sb se dst db = Throw StringIndexOutOfBoundsException \/
  (int_max < db + (se - sb)).
Proof.
  intros I1 I2 I3 Hs Hd N. unfold getChars.
  destruct (sb <? 0) eqn:E1; auto. destruct (se <? sb) eqn:E2; auto.
  destruct (zlen s <? se) eqn:E3; auto. destruct (db <? 0) eqn:E4; auto.
  destruct (Z.lt_ge_cases int_max (db + (se - sb))) as [|G]; auto. left.
  unfold int_max in G. unfold sadd. rewrite sres_ok by (unfold in_s, smin, smax; simpl; lia). cbn [bind].
  replace (zlen dst <? db + (se - sb)) with true by lia. reflexivity.
Qed.
