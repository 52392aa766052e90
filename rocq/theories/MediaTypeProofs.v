(** Proofs about MediaTypeModel.v. *)

From Coq Require Import ZArith List Lia Bool.
From Verif Require Import Base Bits CppText TextSpec TextLemmas StringModel StringSpec StringProofs StringProofs2 StringProps MediaTypeModel MediaTypeSpec.
Import ListNotations.
Open Scope Z_scope.

Lemma equals_eq a b : equals a b = true <-> a = b.
Proof. apply C40_equals. Qed.
Lemma equals_refl a : equals a a = true.
Proof. apply equals_eq. reflexivity. Qed.
Lemma equals_neq a b : equals a b = false <-> a <> b.
Proof. rewrite <- equals_eq. destruct (equals a b); split; congruence. Qed.
Lemma first_split c s hi i : zlen s - 1 <= hi -> first_in [c] s 0 hi i -> (i = -1 /\ ~ In c s) \/ exists a b, s = a ++ c :: b /\ ~ In c a /\ i = zlen a.
Proof.
  intros H [(R & (a & b & E & L) & N)|(E & N)].
  - right. exists a, b. split; [exact E|]. split; [|lia]. intros I. apply in_split in I. destruct I as (a1 & a2 & ->). rewrite zlen_app, zlen_cons in L. pose proof (zlen_nonneg a1). pose proof (zlen_nonneg a2).
    apply (N (zlen a1)); [lia|]. exists a1, (a2 ++ c :: b). rewrite E, <- app_assoc. split; reflexivity.
  - left. split; [exact E|]. intros I. apply in_split in I. destruct I as (a1 & a2 & ->). rewrite zlen_app, zlen_cons in H. pose proof (zlen_nonneg a1). pose proof (zlen_nonneg a2).
    apply (N (zlen a1)); [lia|]. exists a1, a2. split; reflexivity.
Qed.
Lemma index_cases c s : c <> 0 -> (indexOf_char s c = -1 /\ ~ In c s) \/ exists a b, s = a ++ c :: b /\ ~ In c a /\ indexOf_char s c = zlen a.
Proof. intros N. apply (first_split c s (zlen s - 1)); [lia | apply C36_indexOf_char; exact N]. Qed.
Lemma sub_prefix a b : subString (a ++ b) 0 (zlen a) = Ok a.
Proof.
  pose proof (zlen_nonneg a). pose proof (zlen_nonneg b). destruct (C37_subString_inside (a ++ b) 0 (zlen a)) as (t & -> & S); [lia|rewrite zlen_app; lia|]. f_equal. apply (C37_slice_unique _ _ _ _ _ S). exists [], b. repeat split.
Qed.
Lemma sub_suffix a b : subString1 (a ++ b) (zlen a) = Ok b.
Proof.
  pose proof (zlen_nonneg a). pose proof (zlen_nonneg b). unfold subString1. destruct (C37_subString_inside (a ++ b) (zlen a) (zlen (a ++ b))) as (t & -> & S); [rewrite zlen_app; lia|lia|]. f_equal. apply (C37_slice_unique _ _ _ _ _ S). exists a, []. rewrite app_nil_r, zlen_app. repeat split.
Qed.
Lemma first_unique {A} (c : A) : forall a b a' b', a ++ c :: b = a' ++ c :: b' -> ~ In c a -> ~ In c a' -> a = a' /\ b = b'.
Proof.
  induction a as [|x a IH]; intros b [|y a'] b' E N N'; cbn [app] in E.
  - split; congruence.
  - exfalso. apply N'. left. congruence.
  - exfalso. apply N. left. congruence.
  - assert (E1 : x = y) by congruence. assert (E2 : a ++ c :: b = a' ++ c :: b') by congruence. subst y. destruct (IH b a' b' E2) as (-> & ->); [intros I; apply N; right; exact I | intros I; apply N'; right; exact I | auto].
Qed.
Lemma trimmed_unique s t u : trimmed s t -> trimmed s u -> t = u.
Proof.
  assert (L : forall a a' x y : str, Forall (fun c => c = 32) a -> Forall (fun c => c = 32) a' -> a ++ x = a' ++ y -> (x = [] \/ hd 0 x <> 32) -> (y = [] \/ hd 0 y <> 32) -> x = y \/ (Forall (fun c => c = 32) x /\ Forall (fun c => c = 32) y)).
  { induction a as [|c a IH]; intros a' x y F F' E X Y.
    - destruct a' as [|d a']; cbn in E; [auto|]. inversion F'; subst. cbn in X. destruct X as [X|X]; [discriminate|congruence].
    - inversion F; subst. destruct a' as [|d a']; cbn in E.
      + subst y. cbn in Y. destruct Y as [Y|Y]; [discriminate|congruence].
      + injection E as E1 E2. inversion F'; subst. apply (IH a' x y); auto. }
  intros (a & b & E & A & B & N) (a' & b' & E' & A' & B' & N').
  assert (BLANK : forall (x : str), x <> [] -> hd 0 x <> 32 -> ~ Forall (fun c => c = 32) x).
  { intros [|c x] H1 H2 F; [congruence|]. inversion F; subst. cbn in H2. congruence. }
  destruct t as [|c t].
  - destruct u as [|d u]; [reflexivity|]. exfalso. cbn in E. assert (F : Forall (fun c => c = 32) s) by (rewrite E; apply Forall_app; auto). rewrite E' in F. apply Forall_app in F. destruct F as (_ & F). apply Forall_app in F. destruct F as (F & _).
    destruct (N' ltac:(discriminate)) as (H1 & _). refine (BLANK _ _ H1 F); discriminate.
  - destruct u as [|d u].
    + exfalso. assert (F : Forall (fun c => c = 32) s) by (rewrite E'; apply Forall_app; auto). rewrite E in F. apply Forall_app in F. destruct F as (_ & F). apply Forall_app in F. destruct F as (F & _).
      destruct (N ltac:(discriminate)) as (H1 & _). refine (BLANK _ _ H1 F); discriminate.
    + destruct (N ltac:(discriminate)) as (H1 & H2), (N' ltac:(discriminate)) as (H3 & H4). rewrite E in E'.
      destruct (L a a' ((c :: t) ++ b) ((d :: u) ++ b') A A' E' (or_intror H1) (or_intror H3)) as [X|(X & _)].
      * assert (R : rev b ++ rev (c :: t) = rev b' ++ rev (d :: u)) by (rewrite <- !rev_app_distr; congruence).
        assert (HD : forall (l : str), l <> [] -> hd 0 (rev l) = last l 0).
        { intros l NE. destruct (exists_last NE) as (l0 & z & ->). rewrite rev_app_distr, last_last. reflexivity. }
        destruct (L (rev b) (rev b') (rev (c :: t)) (rev (d :: u))) as [Y|(Y & _)].
        -- apply Forall_rev. exact B.
        -- apply Forall_rev. exact B'.
        -- exact R.
        -- right. rewrite HD by discriminate. exact H2.
        -- right. rewrite HD by discriminate. exact H4.
        -- rewrite <- (rev_involutive (c :: t)), Y, rev_involutive. reflexivity.
        -- exfalso. apply Forall_rev in Y. rewrite rev_involutive in Y. refine (BLANK _ _ H1 Y); discriminate.
      * exfalso. apply Forall_app in X. destruct X as (X & _). refine (BLANK _ _ H1 X); discriminate.
Qed.
Lemma zlen0 {A} (l : list A) : (zlen l =? 0) = true <-> l = [].
Proof. destruct l; [cbn; tauto|]. rewrite zlen_cons. pose proof (zlen_nonneg l). split; [intros H1; apply Z.eqb_eq in H1; lia | discriminate]. Qed.
Lemma zlen0_neg {A} (l : list A) : l <> [] -> (zlen l =? 0) = false.
Proof. intros N. destruct (zlen l =? 0) eqn:E; [apply zlen0 in E; contradiction | reflexivity]. Qed.

(** ** Constructor *)
Lemma new_ok t s : (legal (mkM t s) /\ new_mt t s = Ok (mkM t s)) \/ (~ legal (mkM t s) /\ new_mt t s = Throw MediaTypeException).
Proof.
  unfold new_mt, legal. cbn [mtype msub]. destruct (zlen t =? 0) eqn:E1; [right; split; [|reflexivity]; apply zlen0 in E1; tauto|]. destruct (zlen s =? 0) eqn:E2; [right; split; [|reflexivity]; apply zlen0 in E2; tauto|].
  assert (N1 : t <> []) by (intros ->; discriminate). assert (N2 : s <> []) by (intros ->; discriminate).
  destruct (equals t STAR) eqn:E3; cbn [andb]; [|left; split; [|reflexivity]; split; [exact N1|split; [exact N2|]]; intros ->; rewrite equals_refl in E3; discriminate].
  destruct (equals s STAR) eqn:E4; cbn [negb]; [left; split; [|reflexivity]; apply equals_eq in E4; auto|]. right. split; [|reflexivity]. apply equals_eq in E3. apply equals_neq in E4. tauto.
Qed.
(** ** valueOf *)
Lemma valueOf_ok s : (exists m, denotes s m /\ valueOf s = Ok m) \/ ((forall m, ~ denotes s m) /\ valueOf s = Throw MediaTypeException).
Proof.
  unfold valueOf. destruct (zlen s =? 0) eqn:ES.
  { right. split; [|reflexivity]. apply zlen0 in ES. subst s. intros m (part & full & P & _ & T & D). assert (P0 : part = []) by (destruct P as [->|(rest & P)]; [reflexivity|]; destruct part; [discriminate P|discriminate P]). subst part.
    destruct T as (a & b & T & _). symmetry in T. apply app_eq_nil in T. destruct T as (_ & T). apply app_eq_nil in T. destruct T as (-> & _). destruct D as [(D & _)|(D & _)]; [discriminate|]. destruct (mtype m); discriminate. }
  assert (PART : exists part, (if 0 <=? indexOf_str s [59] then subString s 0 (indexOf_str s [59]) else Ok s) = Ok part /\ (part = s \/ exists rest, s = part ++ [59] ++ rest) /\ ~ In 59 part).
  { destruct (first_split 59 s (zlen s) (indexOf_str s [59])) as [(-> & N)|(a & b & E & N & ->)]; [lia | apply C36_indexOf_str; discriminate | exists s; cbn; auto |].
    pose proof (zlen_nonneg a). destruct (Z.leb_spec 0 (zlen a)); [|lia]. exists a. rewrite E at 1. rewrite sub_prefix. split; [reflexivity|]. split; [right; exists b; exact E | exact N]. }
  destruct PART as (part & EP & P & NP). cbv zeta. rewrite EP. cbn [bind]. destruct (C40_trim part) as (full & ET & T). rewrite ET. cbn [bind].
  assert (UNI : forall m, denotes s m -> (full = STAR /\ m = mkM STAR STAR) \/ (full = mtype m ++ [47] ++ msub m /\ ~ In 47 (mtype m) /\ legal m)).
  { intros m (part' & full' & P' & NP' & T' & D). assert (part' = part).
    { destruct P as [->|(rest & P)], P' as [->|(rest' & P')]; auto.
      - exfalso. apply NP. rewrite P'. apply in_or_app. right. left. reflexivity.
      - exfalso. apply NP'. rewrite P. apply in_or_app. right. left. reflexivity.
      - rewrite P in P'. destruct (first_unique 59 part rest part' rest' P' NP NP'). auto. }
    subst part'. rewrite (trimmed_unique _ _ _ T T'). exact D. }
  assert (DEN : forall m, (full = STAR /\ m = mkM STAR STAR) \/ (full = mtype m ++ [47] ++ msub m /\ ~ In 47 (mtype m) /\ legal m) -> denotes s m) by (intros m D; exists part, full; auto).
  destruct (zlen full =? 0) eqn:EF.
  { right. split; [|reflexivity]. apply zlen0 in EF. intros m D. destruct (UNI m D) as [(X & _)|(X & _)]; subst; [discriminate|]. destruct (mtype m); discriminate. }
  destruct (equals full STAR) eqn:EQ.
  { apply equals_eq in EQ. left. exists (mkM STAR STAR). split; [apply DEN; auto|]. reflexivity. }
  apply equals_neq in EQ. destruct (index_cases 47 full) as [(-> & N)|(a & b & E & N & ->)]; [lia| |].
  { right. split; [|reflexivity]. intros m D. destruct (UNI m D) as [(X & _)|(X & _)]; [contradiction|]. apply N. rewrite X. apply in_or_app. right. left. reflexivity. }
  pose proof (zlen_nonneg a). pose proof (zlen_nonneg b). destruct (Z.eqb_spec (zlen a) (-1)); [lia|].
  assert (BAD : ~ legal (mkM a b) -> forall m, ~ denotes s m).
  { intros NL m D. destruct (UNI m D) as [(X & _)|(X & NX & L)]; [contradiction|]. rewrite E in X. destruct (first_unique 47 a b (mtype m) (msub m) X N NX) as (-> & ->). apply NL. destruct m. exact L. }
  assert (LF : zlen full = zlen a + 1 + zlen b) by (rewrite E, zlen_app, zlen_cons; lia).
  destruct (Z.eqb_spec (zlen a) (zlen full - 1)).
  { right. split; [|reflexivity]. apply BAD. intros (_ & L & _). apply L. cbn. destruct b; [reflexivity|]. rewrite zlen_cons in *. pose proof (zlen_nonneg b). lia. }
  assert (S1 : subString full 0 (zlen a) = Ok a) by (rewrite E; apply sub_prefix).
  assert (S2 : subString1 full (zlen a + 1) = Ok b).
  { replace (zlen a + 1) with (zlen (a ++ [47])) by (rewrite zlen_app; reflexivity). rewrite E. replace (a ++ 47 :: b) with ((a ++ [47]) ++ b) by (rewrite <- app_assoc; reflexivity). apply sub_suffix. }
  rewrite S1. cbn [bind]. rewrite S2. cbn [bind].
  destruct (equals a STAR && negb (equals b STAR)) eqn:W.
  { right. split; [|reflexivity]. apply BAD. intros (_ & _ & L). cbn in L. apply andb_prop in W. destruct W as (W1 & W2). apply equals_eq in W1. apply negb_true_iff, equals_neq in W2. auto. }
  destruct (new_ok a b) as [(L & ->)|(L & ->)]; [|right; auto]. left. exists (mkM a b). split; [|reflexivity]. apply DEN. right. cbn. auto.
Qed.

(** ** isCompatible *)
Lemma wildcard_sub m : isWildcardSubtype m = true <-> msub m = STAR \/ exists x, msub m = [42; 43] ++ x.
Proof.
  unfold isWildcardSubtype. rewrite orb_true_iff, equals_eq. rewrite C36_startsWith. split; intros [H|H]; auto.
  - destruct H as (a & b & E & L). right. destruct a; [exists b; exact E|]. rewrite zlen_cons in L. pose proof (zlen_nonneg a). lia.
  - destruct H as (x & E). right. exists [], x. auto.
Qed.
Lemma compat_no_plus a b : legal a -> legal b -> ~ In 43 (msub a) -> ~ In 43 (msub b) -> exists r, isCompatible a b = Ok r /\ (r = true <-> matches a b).
Proof.
  intros (LA1 & LA2 & LA3) (LB1 & LB2 & LB3) NA NB. assert (C : forall x y : mediatype, ~ In 43 (msub x) -> ~ In 43 (msub y) -> covers (msub x) (msub y) -> msub x = STAR \/ msub x = msub y).
  { intros x y Nx Ny [E|[E|(p & z & E & _)]]; auto. exfalso. apply Nx. rewrite E. right. left. reflexivity. }
  assert (WS : forall m, ~ In 43 (msub m) -> isWildcardSubtype m = true <-> msub m = STAR).
  { intros m N. rewrite wildcard_sub. split; [|auto]. intros [E|(x & E)]; [exact E|]. exfalso. apply N. rewrite E. right. left. reflexivity. }
  assert (IX : forall m, ~ In 43 (msub m) -> indexOf_char (msub m) 43 = -1).
  { intros m N. destruct (index_cases 43 (msub m)) as [(E & _)|(x & y & E & _)]; [lia|exact E|]. exfalso. apply N. rewrite E. apply in_or_app. right. left. reflexivity. }
  unfold isCompatible, matches. pose proof (equals_eq (mtype a) (mtype b)) as ET. pose proof (equals_eq (msub a) (msub b)) as ES.
  pose proof (equals_eq (mtype a) STAR) as EA. pose proof (equals_eq (mtype b) STAR) as EB. fold (isWildcardType a) in EA. fold (isWildcardType b) in EB.
  pose proof (WS a NA) as WA. pose proof (WS b NB) as WB. rewrite (IX a NA), (IX b NB).
  destruct (isWildcardType a); [cbn; eexists; split; [reflexivity|]; tauto|].
  destruct (isWildcardType b).
  - cbn. assert (E1 : mtype b = STAR) by tauto. assert (E2 : isWildcardSubtype b = true) by (apply WB; auto). rewrite E2. cbn. eexists. split; [reflexivity|]. tauto.
  - cbn. destruct (equals (mtype a) (mtype b)); cbn.
    + destruct (isWildcardSubtype b); cbn; [eexists; split; [reflexivity|]; assert (msub b = STAR) by tauto; unfold covers; tauto|].
      destruct (equals (msub a) (msub b)); cbn; [eexists; split; [reflexivity|]; unfold covers; assert (msub a = msub b) by tauto; tauto|].
      destruct (isWildcardSubtype a); cbn; [eexists; split; [reflexivity|]; unfold covers; assert (msub a = STAR) by tauto; tauto|].
      eexists. split; [reflexivity|]. split; [discriminate|]. intros [E|[E|(_ & [E|E])]]; [tauto|tauto| |].
      * destruct (C a b NA NB E); tauto.
      * destruct (C b a NB NA E) as [X|X]; [tauto|]. symmetry in X. tauto.
    + eexists. split; [reflexivity|]. split; [discriminate|]. intros [E|[E|(E & _)]]; tauto.
Qed.
Lemma compat_total a b : exists r, isCompatible a b = Ok r.
Proof.
  unfold isCompatible. destruct (negb _ && _ && _); [eauto|]. destruct (isWildcardType a || _); [eauto|]. destruct (equals (mtype a) (mtype b) && _); [eauto|].
  destruct (isWildcardSubtype a || isWildcardSubtype b); [|eauto]. cbv zeta.
  destruct (index_cases 43 (msub a)) as [(-> & _)|(x & y & E & _ & ->)]; [lia| |]; (destruct (index_cases 43 (msub b)) as [(-> & _)|(x' & y' & E' & _ & ->)]; [lia| |]); cbn; eauto.
  - destruct (zlen x' =? -1); cbn; eauto.
  - destruct (zlen x =? -1); cbn; eauto.
  - pose proof (zlen_nonneg x). pose proof (zlen_nonneg x'). destruct (Z.eqb_spec (zlen x) (-1)); [lia|]. destruct (Z.eqb_spec (zlen x') (-1)); [lia|]. cbn [negb andb].
    rewrite E, E', !sub_prefix. cbn [bind]. rewrite !sub_suffix. cbn [bind]. eauto.
Qed.
Lemma compat_refl a : isCompatible a a = Ok true.
Proof.
  unfold isCompatible. rewrite !equals_refl. cbn. rewrite andb_false_r. destruct (isWildcardType a || isWildcardSubtype a); reflexivity.
Qed.
(** Whenever they should be compatible and both have suffixes, they are. *)
Lemma compat_suffix a b p x : mtype a = mtype b -> mtype a <> STAR -> ~ In 43 p -> msub a = [42; 43] ++ x -> msub b = p ++ [43] ++ x -> isCompatible a b = Ok true /\ isCompatible b a = Ok true.
Proof.
  intros ET NS NP EA EB. assert (WA : isWildcardSubtype a = true) by (apply wildcard_sub; eauto).
  assert (TA : isWildcardType a = false) by (apply equals_neq; exact NS). assert (TB : isWildcardType b = false) by (apply equals_neq; congruence).
  split; unfold isCompatible; rewrite TA, TB, WA, ?ET, equals_refl; cbn [negb andb orb]; [|reflexivity].
  destruct (isWildcardSubtype b) eqn:WB; [reflexivity|]. destruct (equals (msub a) (msub b)); [reflexivity|]. cbn [orb].
  destruct (index_cases 43 (msub a)) as [(_ & N)|(u & v & E & N & IA)]; [lia| |]; [exfalso; apply N; rewrite EA; right; left; reflexivity|].
  destruct (index_cases 43 (msub b)) as [(_ & N')|(u' & v' & E' & N' & IB)]; [lia| |]; [exfalso; apply N'; rewrite EB; apply in_or_app; right; left; reflexivity|].
  rewrite IA, IB. pose proof (zlen_nonneg u). pose proof (zlen_nonneg u'). destruct (Z.eqb_spec (zlen u) (-1)); [lia|]. destruct (Z.eqb_spec (zlen u') (-1)); [lia|]. cbn [negb andb].
  rewrite EA in E. destruct (first_unique 43 [42] x u v E) as (<- & <-); [intros [X|[]]; discriminate|exact N|]. rewrite EB in E'. destruct (first_unique 43 p x u' v' E' NP N') as (<- & <-).
  rewrite EA, EB. change ([42; 43] ++ x) with ([42] ++ [43] ++ x). rewrite !sub_prefix. cbn [bind]. rewrite !sub_suffix. cbn [bind]. rewrite equals_refl. reflexivity.
Qed.
