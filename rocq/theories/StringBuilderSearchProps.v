(** Property theorems C42: StringBuilder.indexOf and lastIndexOf. *)

From Coq Require Import ZArith List Lia Bool String.
From Verif Require Import Base Bits TextLemmas CppText TextSpec StringSpec CMem StringBuilderSpec StringBuilderModel StringBuilderProofs StringBuilderProps.
Import ListNotations.
Open Scope Z_scope.
Local Notation length := List.length.

Lemma nth_error_ext {A} (l1 : list A) : forall l2, (forall n, nth_error l1 n = nth_error l2 n) -> l1 = l2.
Proof. induction l1 as [|x l1 IH]; intros [|y l2] H; auto; [specialize (H O); discriminate|specialize (H O); discriminate|]. f_equal; [specialize (H O); cbn in H; congruence|]. apply IH. intros n. apply (H (S n)). Qed.
Lemma occurs_znth p s i : occurs p s i <-> 0 <= i /\ i + zlen p <= zlen s /\ forall k, 0 <= k < zlen p -> znth s (i + k) = znth p k.
Proof.
  split.
  - intros H. pose proof (occurs_nonneg _ _ _ H) as (H1 & H2). split; auto. split; auto. destruct H as (a & b & -> & A). intros k K. rewrite !znth_nth by lia.
    rewrite nth_error_app2 by (unfold zlen in A; lia). replace (Z.to_nat (i + k) - length a)%nat with (Z.to_nat k) by (unfold zlen in A; lia). rewrite nth_error_app1 by (unfold zlen in K; lia). auto.
  - intros (H1 & H2 & H3). exists (firstn (Z.to_nat i) s), (skipn (Z.to_nat (i + zlen p)) s). split; [|unfold zlen in *; rewrite firstn_length; lia].
    rewrite <- (firstn_skipn (Z.to_nat i) s) at 1. f_equal. rewrite <- (firstn_skipn (length p) (skipn (Z.to_nat i) s)). f_equal.
    + apply nth_error_ext. intros n. destruct (lt_dec n (length p)) as [L|L].
      * specialize (H3 (Z.of_nat n)). rewrite !znth_nth in H3 by lia. rewrite Nat2Z.id in H3. rewrite <- H3 by (unfold zlen; lia). replace (Z.to_nat (i + Z.of_nat n)) with (Z.to_nat i + n)%nat by lia.
        clear - L. revert s. induction (Z.to_nat i) as [|k IH]; intros s; cbn [skipn Nat.add]. { revert n L s. induction (length p) as [|q IHq]; intros n L s; [lia|]. destruct s; cbn; [auto|]. destruct n; cbn; auto. apply IHq. lia. } destruct s; cbn; auto. rewrite firstn_nil. destruct n; auto.
      * rewrite !(proj2 (nth_error_None _ _)); auto; [lia|]. rewrite firstn_length. lia.
    + replace (Z.to_nat (i + zlen p)) with (Z.to_nat i + length p)%nat by (unfold zlen; lia). clear. revert s. generalize (length p). induction (Z.to_nat i) as [|k IH]; intros q s; cbn [Nat.add skipn]; auto. destruct s; auto. destruct q; auto.
Qed.

(** ** The table *)
Definition table_inv (n : Z) (t : list Z) (pos : Z) : Prop := zlen t = n /\ znth t 0 = Some (-1) /\ forall k v, 1 <= k < pos -> znth t k = Some v -> 0 <= v < k.
Lemma raw_get_ok {A} (l : list A) i : 0 <= i < zlen l -> exists x, raw_get l i = Ok x /\ znth l i = Some x.
Proof. intros H. destruct (znth_ex l i H) as (x & X). exists x. unfold raw_get. rewrite X. auto. Qed.
Lemma raw_set_ok {A} (l : list A) i v : 0 <= i < zlen l -> raw_set l i v = Ok (zupd l i v).
Proof. intros H. destruct (znth_ex l i H) as (x & X). unfold raw_set. rewrite X. auto. Qed.
Lemma str_get_ok s i : 0 <= i < zlen s -> exists c, str_get s i = Ok c /\ znth s i = Some c.
Proof. intros H. destruct (znth_ex s i H) as (x & X). exists x. unfold str_get. rewrite X. auto. Qed.
Lemma table_inv_set n t pos v : table_inv n t pos -> 1 <= pos < n -> 0 <= v < pos -> table_inv n (zupd t pos v) (pos + 1).
Proof.
  intros (L & Z0 & H) P V. split; [now rewrite zupd_len|]. split.
  - rewrite znth_zupd by lia. replace (pos =? 0) with false by lia. replace (0 =? pos) with false by lia. auto.
  - intros k w K W. rewrite znth_zupd in W by lia. destruct (Z.eq_dec k pos) as [->|N]; [rewrite Z.eqb_refl in W; injection W as <-; auto|]. replace (k =? pos) with false in W by lia. replace (pos =? k) with false in W by lia. apply (H k w); auto. lia.
Qed.
Lemma table_loop_ok pat : forall fuel t pos lps, table_inv (zlen pat) t pos -> 2 <= pos <= zlen pat -> 0 <= lps < pos - 1 \/ (lps = 0 /\ pos = 2) -> 2 * (zlen pat - pos) + lps < Z.of_nat fuel ->
  exists t', table_loop fuel pat t pos lps = Ok t' /\ table_inv (zlen pat) t' (zlen pat).
Proof.
  induction fuel as [|fuel IH]; intros t pos lps I P L F; [lia|]. cbn [table_loop]. destruct (Z.ltb_spec pos (zlen pat)) as [Q|Q].
  - destruct (str_get_ok pat (pos - 1)) as (a & -> & _); [lia|]. cbn [bind]. destruct (str_get_ok pat lps) as (b & -> & _); [lia|]. cbn [bind]. pose proof I as (LT & Z0 & H). destruct (a =? b).
    + rewrite raw_set_ok by lia. cbn [bind]. apply IH; try lia. apply table_inv_set; auto; lia.
    + destruct (Z.ltb_spec 0 lps) as [Q2|Q2].
      * destruct (raw_get_ok t lps) as (l & -> & Hl); [lia|]. cbn [bind]. apply H in Hl; [|lia]. apply IH; auto; lia.
      * rewrite raw_set_ok by lia. cbn [bind]. apply IH; try lia. apply table_inv_set; auto; lia.
  - exists t. split; auto. replace (zlen pat) with pos at 2 by lia. auto.
Qed.
Lemma table_ok pat : pat <> [] -> exists t, initializeNextTable pat = Ok (Some t) /\ table_inv (zlen pat) t (zlen pat).
Proof.
  intros N. unfold initializeNextTable. assert (L : 0 < zlen pat) by (destruct pat; [congruence|rewrite zlen_cons; pose proof (zlen_nonneg pat); lia]). replace (zlen pat =? 0) with false by lia.
  assert (LR : zlen (repeat 0 (length pat)) = zlen pat) by (unfold zlen; now rewrite repeat_length). rewrite raw_set_ok by lia. cbn [bind].
  assert (I1 : table_inv (zlen pat) (zupd (repeat 0 (length pat)) 0 (-1)) 1). { split; [now rewrite zupd_len|]. split; [rewrite znth_zupd by lia; auto|intros; lia]. }
  destruct (Z.eqb_spec (zlen pat) 1) as [Q|Q]; [eexists; split; [reflexivity|]; rewrite Q in *; auto|]. rewrite raw_set_ok by (rewrite zupd_len; lia). cbn [bind].
  assert (I2 := table_inv_set _ _ 1 0 I1 ltac:(lia) ltac:(lia)). destruct (Z.eqb_spec (zlen pat) 2) as [Q2|Q2]; [eexists; split; [reflexivity|]; rewrite Q2 in *; auto|].
  destruct (table_loop_ok pat (2 * length pat + 1) _ 2 0 I2) as (t & -> & It); try lia; [unfold zlen; lia|]. cbn [bind]. eauto.
Qed.

(** ** indexOf *)
Lemma match_loop_safe tab t p : table_inv (zlen t) tab (zlen t) -> p <> [] -> forall fuel start pos, 0 <= start -> 0 <= pos < zlen p ->
  (start <= zlen t /\ (zlen t - start) * (zlen p + 1) + (zlen p - pos) < Z.of_nat fuel) \/ (zlen t < start /\ (0 < fuel)%nat) ->
  exists r, match_loop fuel tab t p start pos = Ok r /\ (r = -1 \/ start <= r < zlen t).
Proof.
  intros (LT & Z0 & HT) N. induction fuel as [|fuel IH]; intros start pos S P F; [nia|]. cbn [match_loop]. destruct (Z.ltb_spec (start + pos) (zlen t)) as [Q|Q]; [|exists (-1); auto].
  destruct F as [(F1 & F)|F]; [|lia].
  destruct (str_get_ok p pos P) as (a & -> & _). cbn [bind]. destruct (str_get_ok t (start + pos)) as (b & -> & _); [lia|]. cbn [bind]. destruct (a =? b).
  - destruct (Z.eqb_spec pos (zlen p - 1)); [exists start; split; auto; lia|]. apply IH; try lia.
  - destruct (raw_get_ok tab pos) as (n & -> & Hn); [lia|]. cbn [bind]. destruct (Z.eq_dec pos 0) as [->|NP].
    + rewrite Z0 in Hn. injection Hn as <-. change (-1 <? -1) with false. cbv iota. destruct (IH (start + 1) 0) as (r & E & R); try lia; try (left; split; nia). exists r. split; auto. lia.
    + apply HT in Hn; [|lia]. replace (-1 <? n) with true by lia. destruct (IH (start + pos) n) as (r & E & R); try lia; try (left; split; nia). exists r. split; auto. lia.
Qed.
(** For a pattern of one or two characters the loop is a plain search. *)
Lemma match_loop_short tab t p s0 : table_inv (zlen t) tab (zlen t) -> 1 <= zlen p <= 2 -> forall fuel start pos, 0 <= s0 <= start -> 0 <= pos < zlen p ->
  (forall j, s0 <= j < start -> ~ occurs p t j) -> (pos = 1 -> znth t start = znth p 0) -> start <= zlen t -> (zlen t - start) * (zlen p + 1) + (zlen p - pos) < Z.of_nat fuel ->
  exists r, match_loop fuel tab t p start pos = Ok r /\ first_in p t s0 (zlen t) r.
Proof.
  intros (LT & Z0 & HT) N. induction fuel as [|fuel IH]; intros start pos S P NO M SL F; [nia|]. cbn [match_loop]. destruct (Z.ltb_spec (start + pos) (zlen t)) as [Q|Q].
  2:{ exists (-1). split; auto. right. split; auto. intros j J O. destruct (Z_lt_dec j start) as [J2|J2]; [apply (NO j); auto; lia|]. apply occurs_nonneg in O. lia. }
  destruct (str_get_ok p pos P) as (a & -> & A). cbn [bind]. destruct (str_get_ok t (start + pos)) as (b & -> & B); [lia|]. cbn [bind]. destruct (Z.eqb_spec a b) as [->|NE].
  - destruct (Z.eqb_spec pos (zlen p - 1)) as [E|E].
    + exists start. split; auto. left. split; [lia|]. split; auto. apply occurs_znth. split; [lia|]. split; [lia|]. intros k K. destruct (Z.eq_dec k pos) as [->|NK]; [congruence|]. replace k with 0 by lia. rewrite Z.add_0_r. apply M. lia.
    + apply IH; auto; try lia. intros _. replace pos with 0 in * by lia. rewrite Z.add_0_r in B. congruence.
  - assert (NS : ~ occurs p t start). { intros O. apply occurs_znth in O as (_ & _ & O). rewrite (O pos P) in B. congruence. }
    assert (NO' : forall j, s0 <= j < start + 1 -> ~ occurs p t j). { intros j J. destruct (Z.eq_dec j start) as [->|]; auto. apply NO. lia. }
    destruct (raw_get_ok tab pos) as (n & -> & Hn); [lia|]. cbn [bind]. destruct (Z.eq_dec pos 0) as [->|NP].
    + rewrite Z0 in Hn. injection Hn as <-. change (-1 <? -1) with false. cbv iota. apply IH; auto; try lia; nia.
    + assert (pos = 1) by lia. subst pos. apply HT in Hn; [|lia]. replace n with 0 in * by lia. change (-1 <? 0) with true. cbv iota. apply IH; auto; try lia; nia.
Qed.

(** indexOf always terminates without undefined behaviour, and a found index
    lies between the start index and the length. *)
Theorem C42_indexOf_total : forall t p from, exists r, stringMatches t p from = Ok r /\ (r = -1 \/ (Z.max 0 (Z.min from (zlen t)) <= r <= zlen t)).
Proof.
  intros t p from. pose proof (zlen_nonneg t). unfold stringMatches. destruct (Z.ltb_spec (zlen t) from) as [Q|Q]; [destruct (zlen p =? 0); eexists; split; auto; lia|]. destruct (Z.eqb_spec (zlen p) 0) as [Q2|Q2]; [destruct (from <? 0) eqn:X; eexists; split; auto; lia|].
  assert (NP : p <> []) by (intros ->; apply Q2; auto). pose proof (zlen_nonneg p). destruct t as [|c t]; [exists (-1); split; auto|].
  destruct (table_ok (c :: t)) as (tab & -> & It); [discriminate|]. cbn [bind]. set (T := c :: t) in *. set (st := if from <? 0 then 0 else from).
  assert (ST : 0 <= st <= zlen T /\ (0 <= from -> st = from)) by (unfold st; destruct (Z.ltb_spec from 0); lia).
  destruct (match_loop_safe tab T p It NP ((length T + 2) * (length p + 2)) st 0) as (r & -> & R); try lia.
  - left. split; [lia|]. unfold zlen in *. nia.
  - exists r. split; auto. lia.
Qed.
Print Assumptions C42_indexOf_total.

(** indexOf is right for patterns of at most two characters. *)
Theorem C42_indexOf_short_partial : forall t p from, zlen p <= 2 ->
  exists r, stringMatches t p from = Ok r /\ first_in p t (Z.max 0 (Z.min from (zlen t))) (zlen t) r.
Proof.
  intros t p from L. pose proof (zlen_nonneg t) as T0. pose proof (zlen_nonneg p) as P0. unfold stringMatches. destruct (Z.eqb_spec (zlen p) 0) as [Q2|Q2].
  - assert (p = []) as -> by (destruct p; auto; rewrite zlen_cons in Q2; pose proof (zlen_nonneg p); lia).
    assert (O : forall j, 0 <= j <= zlen t -> occurs [] t j) by (intros j J; apply occurs_znth; cbn; split; [lia|]; split; [lia|intros; lia]).
    destruct (Z.ltb_spec (zlen t) from) as [Q|Q]; [|destruct (Z.ltb_spec from 0)]; eexists; (split; [reflexivity|]); left; (split; [lia|]); (split; [apply O; lia|intros; lia]).
  - destruct (Z.ltb_spec (zlen t) from) as [Q|Q].
    + exists (-1). split; auto. right. split; auto. intros j J O. apply occurs_nonneg in O. lia.
    + destruct t as [|c t]; [exists (-1); split; auto; right; split; auto; intros j J O; apply occurs_nonneg in O; cbn in O; change (zlen (@nil Z)) with 0 in *; lia|].
      destruct (table_ok (c :: t)) as (tab & -> & It); [discriminate|]. cbn [bind]. set (T := c :: t) in *. set (st := if from <? 0 then 0 else from).
      assert (ST : st = Z.max 0 (Z.min from (zlen T))) by (unfold st; destruct (Z.ltb_spec from 0); lia). rewrite <- ST.
      apply match_loop_short; auto; try lia. unfold zlen in *. nia.
Qed.
Print Assumptions C42_indexOf_short_partial.

(** For longer patterns it is wrong in both directions: it misses an
    occurrence and reports one that does not exist. *)
Theorem C42_indexOf_refuted :
  (stringMatches (T "aaab") (T "aab") 0 = Ok (-1) /\ occurs (T "aab") (T "aaab") 1) /\
  (stringMatches (T "aabaa") (T "aaa") 0 = Ok 2 /\ forall i, ~ occurs (T "aaa") (T "aabaa") i).
Proof.
  split; (split; [vm_compute; reflexivity|]).
  - exists (T "a"), []. auto.
  - intros i O. apply occurs_znth in O as (O1 & O2 & O3). change (zlen (T "aaa")) with 3 in *. change (zlen (T "aabaa")) with 5 in *. destruct (Z.eq_dec i 0) as [->|]; [specialize (O3 2); cbn in O3; assert (H : Some 98 = Some 97) by (apply O3; lia); discriminate|].
    destruct (Z.eq_dec i 1) as [->|]; [specialize (O3 1); cbn in O3; assert (H : Some 98 = Some 97) by (apply O3; lia); discriminate|]. replace i with 2 in O3 by lia. specialize (O3 0). cbn in O3. assert (H : Some 98 = Some 97) by (apply O3; lia). discriminate.
Qed.
Print Assumptions C42_indexOf_refuted.

(** ** lastIndexOf *)
Lemma match_back_safe tab t p : table_inv (zlen p) tab (zlen p) -> p <> [] -> forall fuel start pos, -1 <= start <= zlen t -> 0 <= pos < zlen p ->
  (start + 1) * (zlen p + 1) + (zlen p - pos) < Z.of_nat fuel ->
  exists r, match_back fuel tab t p start pos = Ok r /\ -1 <= r <= zlen t.
Proof.
  intros (LT & Z0 & HT) N. pose proof (zlen_nonneg t) as T0. induction fuel as [|fuel IH]; intros start pos S P F; [nia|]. cbn [match_back]. destruct (Z.leb_spec 0 (start - pos)) as [Q|Q]; [|exists (-1); split; auto; lia].
  destruct (str_get_ok p (zlen p - pos - 1)) as (a & -> & _); [lia|]. cbn [bind].
  assert (G : exists b, str_get t (start - pos) = Ok b). { destruct (Z.eq_dec (start - pos) (zlen t)) as [E|E]; [unfold str_get; rewrite (proj2 (znth_None t (start - pos))) by lia; rewrite E, Z.eqb_refl; eauto|destruct (str_get_ok t (start - pos)) as (b & B & _); [lia|eauto]]. }
  destruct G as (b & ->). cbn [bind]. destruct (a =? b).
  - destruct (Z.eqb_spec pos (zlen p - 1)) as [E|E]; [eexists; split; [reflexivity|]; lia|]. apply IH; lia.
  - destruct (raw_get_ok tab pos) as (n & -> & Hn); [lia|]. cbn [bind]. destruct (Z.eq_dec pos 0) as [->|NP].
    + rewrite Z0 in Hn. injection Hn as <-. change (-1 <? -1) with false. cbv iota. apply IH; try lia; try nia.
    + apply HT in Hn; [|lia]. replace (-1 <? n) with true by lia. apply IH; try lia; try nia.
Qed.
(** From a start of at most the length, and patterns of one or two
    characters: the last occurrence that ends at or before the start. *)
Lemma match_back_short tab t p s0 : table_inv (zlen p) tab (zlen p) -> 1 <= zlen p <= 2 -> no_nul p -> forall fuel start pos, -1 <= start <= s0 -> s0 <= zlen t -> 0 <= pos < zlen p ->
  (forall j, start < j + zlen p - 1 <= s0 -> ~ occurs p t j) -> (pos = 1 -> znth t start = znth p 1) -> (start + 1) * (zlen p + 1) + (zlen p - pos) < Z.of_nat fuel ->
  exists r, match_back fuel tab t p start pos = Ok r /\ last_in p t 0 (s0 - zlen p + 1) r.
Proof.
  intros (LT & Z0 & HT) N NN. induction fuel as [|fuel IH]; intros start pos S S0 P NO M F; [nia|]. cbn [match_back]. destruct (Z.leb_spec 0 (start - pos)) as [Q|Q].
  2:{ exists (-1). split; auto. right. split; auto. intros j J O. destruct (Z_lt_dec start (j + zlen p - 1)) as [J2|J2]; [apply (NO j); auto; lia|]. apply occurs_nonneg in O. lia. }
  destruct (str_get_ok p (zlen p - pos - 1)) as (a & -> & A); [lia|]. cbn [bind].
  assert (A0 : a <> 0). { rewrite znth_nth in A by lia. apply nth_error_In in A. unfold no_nul in NN. rewrite Forall_forall in NN. now apply NN. }
  assert (G : exists b, str_get t (start - pos) = Ok b /\ (b <> 0 -> znth t (start - pos) = Some b) /\ (forall x, znth t (start - pos) = Some x -> x = b)).
  { destruct (Z.eq_dec (start - pos) (zlen t)) as [E|E]; [unfold str_get; assert (Q1 : znth t (start - pos) = None) by (apply znth_None; lia); rewrite Q1; rewrite E, Z.eqb_refl; exists 0; split; auto; split; [congruence|discriminate]|destruct (str_get_ok t (start - pos)) as (b & B & B2); [lia|exists b; split; auto; split; auto; intros x X; congruence]]. }
  destruct G as (b & -> & B & B'). cbn [bind]. destruct (Z.eqb_spec a b) as [->|NE].
  - specialize (B A0). destruct (Z.eqb_spec pos (zlen p - 1)) as [E|E].
    + exists (start - zlen p + 1). split; auto. apply znth_Some_lt in B as BL. left. split; [lia|]. assert (OC : occurs p t (start - zlen p + 1)). 
      { apply occurs_znth. split; [lia|]. split; [destruct (Z.eq_dec pos 1) as [P1|P1]; [assert (X := M P1); destruct (znth_ex p 1) as (y & Y); [lia|]; rewrite Y in X; apply znth_Some_lt in X; lia|lia]|].
        intros k K. destruct (Z.eq_dec k 0) as [->|NK]; [replace (start - zlen p + 1 + 0) with (start - pos) by lia; rewrite B, <- A; f_equal; lia|]. replace k with 1 by lia. replace (start - zlen p + 1 + 1) with start by lia. apply M. lia. }
      split; auto. intros j J. apply NO. lia.
    + apply IH; auto; try lia. intros _. replace pos with 0 in * by lia. rewrite Z.sub_0_r in B. rewrite B, <- A. f_equal. lia.
  - assert (NO' : forall j, start - 1 < j + zlen p - 1 <= s0 -> ~ occurs p t j).
    { intros j J O. destruct (Z_lt_dec start (j + zlen p - 1)) as [J2|J2]; [apply (NO j); auto; lia|]. apply occurs_znth in O as (O1 & O2 & O3). specialize (O3 (zlen p - pos - 1)). assert (X : znth t (start - pos) = Some a). { rewrite <- A, <- O3 by lia. f_equal. lia. } apply B' in X. congruence. }
    destruct (raw_get_ok tab pos) as (n & -> & Hn); [lia|]. cbn [bind]. destruct (Z.eq_dec pos 0) as [->|NP].
    + rewrite Z0 in Hn. injection Hn as <-. change (-1 <? -1) with false. cbv iota. apply IH; auto; try lia; nia.
    + assert (pos = 1) by lia. subst pos. apply HT in Hn; [|lia]. replace n with 0 in * by lia. change (-1 <? 0) with true. cbv iota. apply IH; auto; try lia; nia.
Qed.

(** With a start index of at most the length lastIndexOf terminates without
    undefined behaviour. *)
Theorem C42_lastIndexOf_total_partial : forall t p from, from <= zlen t -> exists r, stringMatchesReverse t p from = Ok r /\ -1 <= r <= zlen t.
Proof.
  intros t p from F. pose proof (zlen_nonneg t). pose proof (zlen_nonneg p). unfold stringMatchesReverse. destruct (Z.ltb_spec from 0) as [Q|Q]; [exists (-1); split; auto; lia|].
  set (st := if from <? zlen t - zlen p then zlen t - zlen p else from). assert (ST : 0 <= st <= zlen t) by (unfold st; destruct (Z.ltb_spec from (zlen t - zlen p)); lia).
  destruct (Z.eqb_spec (zlen p) 0) as [Q2|Q2]; [exists st; split; auto; lia|]. assert (NP : p <> []) by (intros ->; apply Q2; auto).
  destruct (table_ok p NP) as (tab & -> & It). cbn [bind]. apply match_back_safe; auto; try lia. unfold zlen in *. nia.
Qed.
Print Assumptions C42_lastIndexOf_total_partial.

(** lastIndexOf(p), i.e. from the end, is right for patterns of one or two
    characters. *)
Theorem C42_lastIndexOf_short_partial : forall t p, 1 <= zlen p <= 2 -> no_nul p ->
  exists r, stringMatchesReverse t p (zlen t) = Ok r /\ last_in p t 0 (zlen t) r.
Proof.
  intros t p L NN. pose proof (zlen_nonneg t). unfold stringMatchesReverse. replace (zlen t <? 0) with false by lia. replace (zlen t <? zlen t - zlen p) with false by lia. replace (zlen p =? 0) with false by lia.
  assert (NP : p <> []) by (intros ->; cbn in L; lia). destruct (table_ok p NP) as (tab & -> & It). cbn [bind].
  destruct (match_back_short tab t p (zlen t) It L NN ((Z.to_nat (zlen t) + 2) * (length p + 2)) (zlen t) 0) as (r & -> & R); try lia.
  - unfold zlen in *. nia.
  - exists r. split; auto. destruct R as [(R1 & R2 & R3)|(R1 & R2)]; [left; split; [lia|]; split; auto; intros j J O; apply (R3 j); auto; apply occurs_nonneg in O; lia|]. right. split; auto. intros j J O. apply (R2 j); auto. apply occurs_nonneg in O. lia.
Qed.
Print Assumptions C42_lastIndexOf_short_partial.

(** For a single character the from index is ignored: any from in range gives
    the last occurrence of the whole text. *)
Theorem C42_lastIndexOf_from_char_partial : forall t c from, c <> 0 -> 0 <= from <= zlen t -> exists r, stringMatchesReverse t [c] from = Ok r /\ last_in [c] t 0 (zlen t) r.
Proof.
  intros t c from C F. unfold stringMatchesReverse. replace (from <? 0) with false by lia. change (zlen [c]) with 1. change (1 =? 0) with false. cbv iota.
  set (st := if from <? zlen t - 1 then zlen t - 1 else from). assert (ST : zlen t - 1 <= st <= zlen t /\ 0 <= st) by (unfold st; destruct (Z.ltb_spec from (zlen t - 1)); lia).
  destruct (table_ok [c]) as (tab & -> & It); [discriminate|]. cbn [bind].
  destruct (match_back_short tab t [c] st It) with (fuel := ((Z.to_nat st + 2) * (length [c] + 2))%nat) (start := st) (pos := 0) as (r & -> & R); try (change (zlen [c]) with 1); try lia.
  - constructor; auto.
  - exists r. split; auto. change (zlen [c]) with 1 in R. assert (X : forall j, occurs [c] t j -> j < zlen t) by (intros j O; apply occurs_nonneg in O; change (zlen [c]) with 1 in O; lia).
    destruct R as [(R1 & R2 & R3)|(R1 & R2)]; [left; split; [lia|]; split; auto; intros j J O; apply (R3 j); auto; apply X in O; lia|]. right. split; auto. intros j J O. apply (R2 j); auto. apply X in O. lia.
Qed.
Print Assumptions C42_lastIndexOf_from_char_partial.

(** Wrong: the from index is ignored, longer patterns are missed or invented,
    and a from index beyond the length reads outside the text. *)
Theorem C42_lastIndexOf_refuted :
  stringMatchesReverse (T "aba") (T "a") 0 = Ok 2 /\
  (stringMatchesReverse (T "abbb") (T "abb") 4 = Ok (-1) /\ occurs (T "abb") (T "abbb") 0) /\
  (stringMatchesReverse (T "aabaa") (T "aaa") 5 = Ok 0 /\ ~ occurs (T "aaa") (T "aabaa") 0) /\
  stringMatchesReverse (T "aba") (T "a") 5 = UB OutOfBounds.
Proof.
  split; [vm_compute; reflexivity|]. split; [split; [vm_compute; reflexivity|exists [], (T "b"); auto]|]. split; [|vm_compute; reflexivity]. split; [vm_compute; reflexivity|]. rewrite occurs_0. vm_compute. discriminate.
Qed.
Print Assumptions C42_lastIndexOf_refuted.
Theorem C42_lastIndexOf_beyond_refuted : forall t p from, zlen t < from -> p <> [] -> stringMatchesReverse t p from = UB OutOfBounds.
Proof.
  intros t p from F N. pose proof (zlen_nonneg t). pose proof (zlen_nonneg p). unfold stringMatchesReverse. replace (from <? 0) with false by lia. replace (from <? zlen t - zlen p) with false by lia.
  destruct (table_ok p N) as (tab & -> & It). assert (0 < zlen p) by (destruct p; [congruence|rewrite zlen_cons; pose proof (zlen_nonneg p); lia]). replace (zlen p =? 0) with false by lia. cbn [bind]. destruct ((Z.to_nat from + 2) * (length p + 2))%nat as [|f] eqn:FU; [lia|]. cbn [match_back].
  replace (0 <=? from - 0) with true by lia. destruct (str_get_ok p (zlen p - 0 - 1)) as (a & -> & _); [lia|]. cbn [bind]. unfold str_get at 1. rewrite (proj2 (znth_None t (from - 0))) by lia. replace (from - 0 =? zlen t) with false by lia. auto.
Qed.
Print Assumptions C42_lastIndexOf_beyond_refuted.

(** The calls on a StringBuilder after any conforming history. *)
Theorem C42_builder : forall m s w ops, built m s w ->
  (forall pre o post w' as_, ops = pre ++ o :: post -> srun w pre w' as_ -> sb_conforming m w' o) ->
  exists s' as_ w', s_run m s ops = Ok (s', as_) /\ srun w ops w' as_ /\ (zlen w' <= lim m -> no_nul w' -> forall p from,
    sb_indexOf m s' p = stringMatches w' p 0 /\ sb_indexOf_from m s' p from = stringMatches w' p from /\
    sb_lastIndexOf m s' p = stringMatchesReverse w' p (zlen w') /\ sb_lastIndexOf_from m s' p from = stringMatchesReverse w' p from).
Proof.
  intros m s w ops B C. destruct (built_inv m s w B) as (I & BW). destruct (s_run_ok m ops s w I BW C) as (s' & as_ & w' & E & R & I'). exists s', as_, w'. split; auto. split; auto.
  intros L NN p from. unfold sb_indexOf, sb_lastIndexOf, sb_indexOf_from, sb_lastIndexOf_from. rewrite (toString_ok m s' w' I' L), cstr_id by auto. cbn [bind]. rewrite (sinv_len s' w' I'). auto.
Qed.
Print Assumptions C42_builder.

Example C42_example : stringMatches (T "hello world") (T "o") 5 = Ok 7 /\ stringMatches (T "hello") (T "ll") 0 = Ok 2 /\ stringMatchesReverse (T "hello world") (T "or") 11 = Ok 7 /\ stringMatches (T "abc") (T "") 9 = Ok 3.
Proof. vm_compute. auto. Qed.
