(** C58: media types. *)

From Coq Require Import String.
Open Scope string_scope.
From Coq Require Import ZArith List Lia Bool.
From Verif Require Import Base Bits CppText TextSpec TextLemmas StringModel StringSpec MediaTypeModel MediaTypeSpec MediaTypeProofs.
Import ListNotations.
Open Scope Z_scope.
Local Notation mt a b := (mkM (T a) (T b)).

Theorem C58_constructor : forall t s, (legal (mkM t s) /\ new_mt t s = Ok (mkM t s)) \/ (~ legal (mkM t s) /\ new_mt t s = Throw MediaTypeException).
Proof. exact new_ok. Qed.
Print Assumptions C58_constructor.
(** valueOf accepts exactly the texts that denote a media type, and returns it. *)
Theorem C58_valueOf : forall s, (exists m, denotes s m /\ valueOf s = Ok m) \/ ((forall m, ~ denotes s m) /\ valueOf s = Throw MediaTypeException).
Proof. exact valueOf_ok. Qed.
Print Assumptions C58_valueOf.
Theorem C58_valueOf_only : forall s m, valueOf s = Ok m -> denotes s m /\ legal m.
Proof.
  intros s m E. destruct (valueOf_ok s) as [(m' & D & E')|(_ & E')]; rewrite E in E'; [|discriminate]. injection E' as <-. split; [exact D|]. destruct D as (part & full & _ & _ & _ & [(_ & ->)|(_ & _ & L)]); [|exact L]. repeat split; discriminate.
Qed.
Print Assumptions C58_valueOf_only.
(** valueOf(toString(m)) is m, if the type contains no '/', ';' or NUL and begins with no blank,
    and the subtype contains no ';' or NUL and ends with no blank. *)
Theorem C58_roundtrip_partial : forall m, legal m -> no_nul (mtype m) -> no_nul (msub m) -> ~ In 47 (mtype m) -> ~ In 59 (mtype m) -> ~ In 59 (msub m) ->
  hd 0 (mtype m) <> 32 -> last (msub m) 0 <> 32 -> valueOf (toString m) = Ok m.
Proof.
  intros m L N1 N2 S1 S2 S3 B1 B2. unfold toString. rewrite cstr_id by (unfold no_nul in *; rewrite !Forall_app; repeat split; auto; constructor; [discriminate|constructor]).
  destruct L as (L1 & L2 & L3). set (s := mtype m ++ [47] ++ msub m).
  assert (NS : ~ In 59 s). { unfold s. rewrite !in_app_iff. intros [H|[[H|[]]|H]]; [auto|discriminate|auto]. }
  assert (TR : trimmed s s). { exists [], []. rewrite app_nil_r. split; [reflexivity|]. split; [constructor|]. split; [constructor|]. intros _. split; [unfold s; destruct (mtype m); [contradiction|exact B1]|]. unfold s. rewrite app_assoc. destruct (exists_last L2) as (u & z & E). rewrite E in *. rewrite app_assoc, last_last. rewrite last_last in B2. exact B2. }
  assert (D : denotes s m) by (exists s, s; split; [auto|]; split; [exact NS|]; split; [exact TR|]; right; split; [reflexivity|]; split; [exact S1|]; repeat split; assumption).
  destruct (valueOf_ok s) as [(m' & D' & E')|(NO & _)]; [|destruct (NO m D)]. rewrite E'. f_equal. destruct D' as (part & full & P & NP & T' & D').
  assert (part = s). { destruct P as [P|(rest & P)]; [exact P|]. exfalso. apply NS. rewrite P. apply in_or_app. right. left. reflexivity. }
  subst part. rewrite <- (trimmed_unique _ _ _ TR T') in D'. destruct D' as [(X & ->)|(X & N' & _)].
  - exfalso. unfold s in X. destruct (mtype m) as [|c [|]]; discriminate.
  - destruct (first_unique 47 (mtype m) (msub m) (mtype m') (msub m') X S1 N') as (Y1 & Y2). destruct m, m'. cbn in *. congruence.
Qed.
Print Assumptions C58_roundtrip_partial.
(** In particular for everything valueOf returns for a text without NUL. *)
Theorem C58_valueOf_toString : forall s m, no_nul s -> valueOf s = Ok m -> valueOf (toString m) = Ok m.
Proof.
  intros s m NN E. destruct (C58_valueOf_only s m E) as ((part & full & P & NP & T' & D) & L). destruct D as [(_ & ->)|(EF & NS & _)]; [reflexivity|].
  assert (IN : forall c, In c full -> In c part). { destruct T' as (a & b & -> & _). intros c I. apply in_or_app. right. apply in_or_app. left. exact I. }
  assert (IS : forall c, In c part -> In c s). { intros c I. destruct P as [<-|(rest & ->)]; [exact I|]. apply in_or_app. left. exact I. }
  unfold no_nul in NN. rewrite Forall_forall in NN. pose proof L as (L1 & L2 & L3). destruct T' as (a & b & _ & _ & _ & H). destruct H as (H1 & H2); [rewrite EF; destruct (mtype m); discriminate|].
  apply C58_roundtrip_partial; auto.
  - apply Forall_forall. intros c I. apply NN, IS, IN. rewrite EF. apply in_or_app. left. exact I.
  - apply Forall_forall. intros c I. apply NN, IS, IN. rewrite EF. apply in_or_app. right. right. exact I.
  - intros I. apply NP, IN. rewrite EF. apply in_or_app. left. exact I.
  - intros I. apply NP, IN. rewrite EF. apply in_or_app. right. right. exact I.
  - rewrite EF in H1. destruct (mtype m); [contradiction|exact H1].
  - rewrite EF in H2. destruct (exists_last L2) as (u & z & EL). rewrite EL in *. rewrite !app_assoc, last_last in H2. rewrite last_last. exact H2.
Qed.
Print Assumptions C58_valueOf_toString.
(** Media types that do not come back: a '/' in the type, a blank at the end. *)
Theorem C58_roundtrip_refuted : legal (mt "a/b" "c") /\ valueOf (toString (mt "a/b" "c")) = Ok (mt "a" "b/c") /\
  legal (mt "text" "x ") /\ valueOf (toString (mt "text" "x ")) = Ok (mt "text" "x").
Proof. repeat split; try discriminate; vm_compute; reflexivity. Qed.
Print Assumptions C58_roundtrip_refuted.

(** isCompatible is total and reflexive. *)
Theorem C58_reflexive : forall m, isCompatible m m = Ok true.
Proof. exact compat_refl. Qed.
Print Assumptions C58_reflexive.
Theorem C58_isCompatible_total : forall a b, exists r, isCompatible a b = Ok r.
Proof. exact compat_total. Qed.
Print Assumptions C58_isCompatible_total.
(** Without '+' in the subtypes it is what it should be, hence symmetric. *)
Theorem C58_isCompatible_partial : forall a b, legal a -> legal b -> ~ In 43 (msub a) -> ~ In 43 (msub b) ->
  exists r, isCompatible a b = Ok r /\ (r = true <-> matches a b).
Proof. exact compat_no_plus. Qed.
Print Assumptions C58_isCompatible_partial.

(** What isCompatible answers for all legal media types: unlike [matches] it
    takes any wildcard subtype of the argument, with whatever suffix, and its
    own "*" only for subtypes without suffix. *)
Definition code_matches (a b : mediatype) : Prop :=
  mtype a = STAR \/ mtype b = STAR \/
  (mtype a = mtype b /\ (msub b = STAR \/ (exists x, msub b = [42; 43] ++ x) \/ msub a = msub b \/ (msub a = STAR /\ ~ In 43 (msub b)) \/
     exists p x, msub a = [42; 43] ++ x /\ ~ In 43 p /\ msub b = p ++ [43] ++ x)).
Theorem C58_isCompatible_exact : forall a b, legal a -> legal b -> exists r, isCompatible a b = Ok r /\ (r = true <-> code_matches a b).
Proof.
  intros a b (LA1 & LA2 & LA3) (LB1 & LB2 & LB3). unfold isCompatible, code_matches. pose proof (equals_eq (mtype a) (mtype b)) as ET. pose proof (equals_eq (msub a) (msub b)) as ES.
  pose proof (equals_eq (mtype a) STAR) as EA. pose proof (equals_eq (mtype b) STAR) as EB. fold (isWildcardType a) in EA. fold (isWildcardType b) in EB.
  pose proof (wildcard_sub a) as WA. pose proof (wildcard_sub b) as WB.
  destruct (isWildcardType a); [cbn; eexists; split; [reflexivity|]; tauto|].
  destruct (isWildcardType b). { cbn. assert (isWildcardSubtype b = true) as -> by (apply WB; left; tauto). cbn. eexists. split; [reflexivity|]. tauto. }
  cbn [negb andb orb]. destruct (equals (mtype a) (mtype b)); cbn [negb andb]; [|eexists; split; [reflexivity|]; split; [discriminate|]; intros [E|[E|(E & _)]]; tauto].
  destruct (isWildcardSubtype b); [eexists; split; [reflexivity|]; tauto|]. destruct (equals (msub a) (msub b)); [eexists; split; [reflexivity|]; tauto|]. cbn [orb].
  assert (NB : msub b <> STAR /\ ~ exists x, msub b = [42; 43] ++ x) by (split; intros X; assert (false = true) by (apply WB; auto); discriminate).
  destruct NB as [NB1 NB2]. assert (NE : msub a <> msub b) by (intros X; apply ES in X; discriminate).
  assert (NT : ~ (mtype a = STAR) /\ ~ (mtype b = STAR)) by (split; intros X; [apply EA in X|apply EB in X]; discriminate). destruct NT as [NT1 NT2].
  assert (TE : mtype a = mtype b) by (apply ET; reflexivity).
  assert (RED : forall r Q, (r = true <-> Q) -> (Q <-> (msub a = STAR /\ ~ In 43 (msub b)) \/ exists p x, msub a = [42; 43] ++ x /\ ~ In 43 p /\ msub b = p ++ [43] ++ x) ->
    (r = true <-> mtype a = STAR \/ mtype b = STAR \/ mtype a = mtype b /\ (msub b = STAR \/ (exists x, msub b = [42; 43] ++ x) \/ msub a = msub b \/ (msub a = STAR /\ ~ In 43 (msub b)) \/ exists p x, msub a = [42; 43] ++ x /\ ~ In 43 p /\ msub b = p ++ [43] ++ x))) by (intros r Q H1 H2; tauto).
  destruct (isWildcardSubtype a).
  2: { eexists. split; [reflexivity|]. apply (RED false False); [split; [discriminate|tauto]|]. split; [tauto|]. intros [(X & _)|(p & x & X & _)]; [assert (false = true) by (apply WA; now left); discriminate|assert (false = true) by (apply WA; right; eauto); discriminate]. }
  assert (WA' : msub a = STAR \/ exists x, msub a = [42; 43] ++ x) by (now apply WA). cbv zeta.
  destruct (index_cases 43 (msub a)) as [(IA & N)|(u & v & E & N & IA)]; [lia| |]; rewrite IA; (destruct (index_cases 43 (msub b)) as [(IB & N')|(u' & v' & E' & N' & IB)]; [lia| |]); rewrite IB.
  - cbn. eexists. split; [reflexivity|]. apply (RED true True); [tauto|]. split; [intros _|tauto]. left. split; [|exact N']. destruct WA' as [X|(x & X)]; [exact X|]. exfalso. apply N. rewrite X. right. now left.
  - replace (zlen u' =? -1) with false by (pose proof (zlen_nonneg u'); symmetry; apply Z.eqb_neq; lia). cbn. eexists. split; [reflexivity|]. apply (RED false False); [split; [discriminate|tauto]|]. split; [tauto|].
    intros [(_ & X)|(p & x & X & _)]; [apply X; rewrite E'; apply in_or_app; right; now left|apply N; rewrite X; right; now left].
  - replace (zlen u =? -1) with false by (pose proof (zlen_nonneg u); symmetry; apply Z.eqb_neq; lia). cbn. eexists. split; [reflexivity|]. apply (RED false False); [split; [discriminate|tauto]|]. split; [tauto|].
    intros [(X & _)|(p & x & _ & _ & X)]; [|apply N'; rewrite X; apply in_or_app; right; now left]. assert (Y : In 43 (msub a)) by (rewrite E; apply in_or_app; right; now left). rewrite X in Y. destruct Y as [Y|[]]; discriminate.
  - replace (zlen u =? -1) with false by (pose proof (zlen_nonneg u); symmetry; apply Z.eqb_neq; lia). replace (zlen u' =? -1) with false by (pose proof (zlen_nonneg u'); symmetry; apply Z.eqb_neq; lia). cbn [negb andb].
    assert (X : exists x, msub a = [42; 43] ++ x). { destruct WA' as [X|X]; [|exact X]. exfalso. assert (Y : In 43 (msub a)) by (rewrite E; apply in_or_app; right; now left). rewrite X in Y. destruct Y as [Y|[]]; discriminate. }
    destruct X as [x X]. pose proof E as E0. rewrite X in E0. destruct (first_unique 43 [42] x u v E0) as (<- & <-); [intros [Y|[]]; discriminate|exact N|].
    eexists. split; [rewrite X, E'; change ([42; 43] ++ x) with ([42] ++ [43] ++ x); rewrite !sub_prefix; cbn [bind]; rewrite !sub_suffix; cbn [bind]; change (equals [42] STAR) with true; rewrite orb_true_l, andb_true_r; reflexivity|]. apply (RED _ ([43] ++ x = [43] ++ v')).
    + apply equals_eq.
    + split; [intros Y; injection Y as ->; right; exists u', v'; repeat split; auto|]. intros [(Y & _)|(p & z & Y1 & Y2 & Y3)]; [rewrite X in Y; discriminate|].
      rewrite X in Y1. injection Y1 as <-. rewrite E' in Y3. destruct (first_unique 43 u' v' p x Y3 N' Y2) as (_ & ->). reflexivity.
Qed.
Print Assumptions C58_isCompatible_exact.
Theorem C58_matches_symmetric : forall a b, matches a b -> matches b a.
Proof. unfold matches. intros a b [H|[H|(H & [K|K])]]; auto. Qed.
Print Assumptions C58_matches_symmetric.
Theorem C58_symmetric_partial : forall a b, legal a -> legal b -> ~ In 43 (msub a) -> ~ In 43 (msub b) -> isCompatible a b = isCompatible b a.
Proof.
  intros a b LA LB NA NB. destruct (compat_no_plus a b LA LB NA NB) as (r & -> & R). destruct (compat_no_plus b a LB LA NB NA) as (r' & -> & R'). f_equal. apply eq_true_iff_eq. rewrite R, R'. split; apply C58_matches_symmetric.
Qed.
Print Assumptions C58_symmetric_partial.
(** "*+suffix" matches subtypes with that suffix, both ways. *)
Theorem C58_suffix : forall a b p x, mtype a = mtype b -> mtype a <> STAR -> ~ In 43 p -> msub a = [42; 43] ++ x -> msub b = p ++ [43] ++ x ->
  isCompatible a b = Ok true /\ isCompatible b a = Ok true.
Proof. exact compat_suffix. Qed.
Print Assumptions C58_suffix.
(** But it is not symmetric, and wrong, with suffixes: anything is compatible with a "*+suffix" given as argument ... *)
Theorem C58_symmetric_refuted : legal (mt "application" "json") /\ legal (mt "application" "*+xml") /\
  isCompatible (mt "application" "json") (mt "application" "*+xml") = Ok true /\
  isCompatible (mt "application" "*+xml") (mt "application" "json") = Ok false /\
  ~ matches (mt "application" "json") (mt "application" "*+xml").
Proof.
  split; [repeat split; discriminate|]. split; [repeat split; discriminate|]. split; [vm_compute; reflexivity|]. split; [vm_compute; reflexivity|].
  intros [H|[H|(_ & [[H|[H|(p & x & H & _)]]|[H|[H|(p & x & H & N & H2)]]])]]; try discriminate. cbn in H. injection H as <-. apply (f_equal (@rev Z)) in H2. rewrite !rev_app_distr in H2. discriminate.
Qed.
Print Assumptions C58_symmetric_refuted.
(** ... and a plain "*" is not compatible with a subtype with a suffix. *)
Theorem C58_wildcard_suffix_refuted : legal (mt "application" "*") /\ legal (mt "application" "atom+xml") /\
  isCompatible (mt "application" "*") (mt "application" "atom+xml") = Ok false /\
  isCompatible (mt "application" "atom+xml") (mt "application" "*") = Ok true /\ matches (mt "application" "*") (mt "application" "atom+xml").
Proof. split; [repeat split; discriminate|]. split; [repeat split; discriminate|]. split; [vm_compute; reflexivity|]. split; [vm_compute; reflexivity|]. right. right. split; [reflexivity|]. left. left. reflexivity. Qed.
Print Assumptions C58_wildcard_suffix_refuted.
Example C58_ex : valueOf (T " text/html ; charset=utf-8") = Ok (mt "text" "html") /\ valueOf (T "*") = Ok (mt "*" "*") /\ valueOf (T "*/html") = Throw MediaTypeException /\
  toString (mt "text" "html") = T "text/html" /\ isCompatible (mt "text" "html") (mt "text" "*") = Ok true /\ legal (mt "text" "html").
Proof. repeat split; try discriminate; vm_compute; reflexivity. Qed.
