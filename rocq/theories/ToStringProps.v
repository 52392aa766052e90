(** C88: the texts of ArrayList and HashMap. *)

From Coq Require Import ZArith List Lia Bool String.
From Verif Require Import Base Bits CppText TextSpec TextLemmas IntegerProofs2 ToStringModel ToStringSpec.
From Verif Require ShortProps.
From Verif Require LongProofs2.
Import ListNotations.
Open Scope string_scope.
Open Scope list_scope.
Open Scope Z_scope.

Lemma element_plain s : element false s = s.
Proof. reflexivity. Qed.
Lemma element_written s : written s (element true s).
Proof.
  unfold written, element, serialized. cbn [andb]. destruct s as [|c s]; [right; split; [intros (t & [H|H]); discriminate|reflexivity]|]. rewrite zlen_cons. pose proof (zlen_nonneg s). destruct (Z.eqb_spec (zlen s + 1) 0); [lia|]. destruct (Z.eqb_spec (1 + zlen s) 0); [lia|].
  cbn [nth orb]. destruct (Z.eqb_spec c 91) as [->|N1]; [left; split; [eauto|reflexivity]|]. destruct (Z.eqb_spec c 123) as [->|N2]; [left; split; [eauto|reflexivity]|].
  right. split; [intros (t & [G|G]); injection G as G1 _; contradiction|reflexivity].
Qed.
Lemma joined_snoc ts t : ts <> [] -> joined (ts ++ [t]) = joined ts ++ [44; 32] ++ t.
Proof. induction ts as [|x ts IH]; [congruence|]. intros _. destruct ts as [|y ts]; [reflexivity|]. change ((x :: y :: ts) ++ [t]) with (x :: (y :: ts) ++ [t]). cbn [joined]. change ((y :: ts) ++ [t]) with (y :: ts ++ [t]) in *. rewrite IH by discriminate. cbn [joined]. rewrite <- !app_assoc. reflexivity. Qed.
Lemma joined_cons t ts : ts <> [] -> joined (t :: ts) = t ++ [44; 32] ++ joined ts.
Proof. destruct ts; [congruence|reflexivity]. Qed.

Section L.
Context {E : Type} (show : E -> str) (f : bool).
Lemma al_loop_ok l : forall n fuel b, (n <= List.length l)%nat -> (n < fuel)%nat ->
  al_loop show f fuel l (zlen l - Z.of_nat n) b = Ok (b ++ joined (map (fun e => element f (show e)) (skipn (List.length l - n) l))).
Proof.
  induction n as [|n IH]; intros [|fuel] b N F; try lia; cbn [al_loop].
  - destruct (Z.ltb_spec (zlen l - Z.of_nat 0) (zlen l)); [lia|]. rewrite Nat.sub_0_r, skipn_all. cbn. rewrite app_nil_r. reflexivity.
  - destruct (Z.ltb_spec (zlen l - Z.of_nat (S n)) (zlen l)); [|lia]. unfold raw_get. destruct (znth_ex l (zlen l - Z.of_nat (S n))) as (x & X); [unfold zlen; lia|]. rewrite X. cbn [bind].
    replace (zlen l - Z.of_nat (S n) + 1) with (zlen l - Z.of_nat n) by lia. rewrite IH by lia.
    assert (NE : nth_error l (List.length l - S n) = Some x). { rewrite <- X. rewrite znth_nth by (unfold zlen; lia). f_equal. unfold zlen. lia. }
    assert (SK : skipn (List.length l - S n) l = x :: skipn (List.length l - n) l).
    { replace (List.length l - n)%nat with (S (List.length l - S n)) by lia. clear -NE. revert NE. generalize (List.length l - S n)%nat as i. induction l as [|y l IHl]; intros [|i] NE; cbn in *; try discriminate; [injection NE as ->; reflexivity|]. apply IHl. exact NE. }
    rewrite SK. cbn [map]. f_equal. rewrite <- app_assoc. f_equal. destruct (Z.eqb_spec (zlen l - Z.of_nat (S n)) (zlen l - 1)).
    + assert (n = 0%nat) by lia. subst n. rewrite Nat.sub_0_r, skipn_all. cbn. rewrite app_nil_r. reflexivity.
    + rewrite joined_cons, <- app_assoc; [reflexivity|]. assert (List.length (skipn (List.length l - n) l) = n) by (rewrite skipn_length; lia). destruct (skipn (List.length l - n) l); [cbn in *; lia|discriminate].
Qed.
Lemma al_text l : al_toString show f l = Ok ([91] ++ joined (map (fun e => element f (show e)) l) ++ [93]).
Proof.
  unfold al_toString. destruct (Z.eqb_spec (zlen l) 0) as [Z0|N]; [destruct l; [reflexivity|rewrite zlen_cons in Z0; pose proof (zlen_nonneg l); lia]|].
  pose proof (al_loop_ok l (List.length l) (S (List.length l)) [91] ltac:(lia) ltac:(lia)) as P. rewrite Nat.sub_diag in P. cbn [skipn] in P. replace (zlen l - Z.of_nat (List.length l)) with 0 in P by (unfold zlen; lia). rewrite P. cbn [bind]. rewrite <- app_assoc. reflexivity.
Qed.
End L.

(** ** The exact texts *)

(** "[", the elements' texts with ", " between them, "]". *)
Theorem C88_list_text : forall E (show : E -> str) l, al_toString show false l = Ok (T "[" ++ joined (map show l) ++ T "]").
Proof. intros. apply al_text. Qed.
Print Assumptions C88_list_text.
(** A list of Strings: quotes around those that are not serialized. *)
Theorem C88_string_list_text : forall l, exists ws, Forall2 written l ws /\ al_toString (fun s => s) true l = Ok (T "[" ++ joined ws ++ T "]").
Proof.
  intros l. exists (map (element true) l). split; [|apply al_text]. induction l; constructor; [apply element_written|assumption].
Qed.
Print Assumptions C88_string_list_text.

Section M.
Context {K V : Type} (showK : K -> str) (showV : V -> str) (fk fv : bool).
Definition entry (p : K * V) : str := (if fk then quote (showK (fst p)) else showK (fst p)) ++ [58; 32] ++ element fv (showV (snd p)).
Lemma hm_loop_ok m : forall c b, hm_loop showK showV fk fv m (c + zlen m) c b = b ++ joined (map entry m).
Proof.
  induction m as [|(k, v) m IH]; intros c b; cbn [hm_loop map]; [cbn; rewrite app_nil_r; reflexivity|]. rewrite zlen_cons.
  replace (c + (zlen m + 1)) with (c + 1 + zlen m) by lia. replace (c + (1 + zlen m)) with (c + 1 + zlen m) by lia. rewrite IH. rewrite <- !app_assoc. f_equal.
  destruct (Z.eqb_spec (c + 1) (c + 1 + zlen m)) as [Z0|N].
  - destruct m; [|rewrite zlen_cons in Z0; pose proof (zlen_nonneg m); lia]. cbn [map joined]. unfold entry. cbn [fst snd]. rewrite app_nil_r. reflexivity.
  - destruct m as [|q m]; [cbn in N; lia|]. rewrite joined_cons by discriminate. unfold entry at 2. cbn [fst snd]. rewrite <- !app_assoc. reflexivity.
Qed.
Lemma hm_text m : hm_toString showK showV fk fv m = [123] ++ joined (map entry m) ++ [125].
Proof.
  unfold hm_toString. destruct (Z.eqb_spec (zlen m) 0) as [Z0|N]; [destruct m; [reflexivity|rewrite zlen_cons in Z0; pose proof (zlen_nonneg m); lia]|].
  pose proof (hm_loop_ok m 0 [123]) as P. cbn [Z.add] in P. rewrite P, <- app_assoc. reflexivity.
Qed.
End M.
(** "{", key ": " value for the entries in iteration order with ", " between
    them, "}"; a key that is a String is in quotes, a value that is a String
    unless it is serialized. *)
Theorem C88_map_text : forall K V (showK : K -> str) (showV : V -> str) m, hm_toString showK showV false false m = T "{" ++ joined (map (fun p => showK (fst p) ++ T ": " ++ showV (snd p)) m) ++ T "}".
Proof. intros. exact (hm_text showK showV false false m). Qed.
Print Assumptions C88_map_text.
Theorem C88_string_map_text : forall m : list (str * str), exists ws, Forall2 (fun p w => exists v, written (snd p) v /\ w = T """" ++ fst p ++ T """: " ++ v) m ws /\
  hm_toString (fun s => s) (fun s => s) true true m = T "{" ++ joined ws ++ T "}".
Proof.
  intros m. exists (map (entry (fun s => s) (fun s => s) true true) m). split; [|apply hm_text]. induction m as [|p m IH]; constructor; [|exact IH].
  exists (element true (snd p)). split; [apply element_written|]. unfold entry, quote. cbn [fst snd]. rewrite <- !app_assoc. reflexivity.
Qed.
Print Assumptions C88_string_map_text.

(** ** When the text determines the contents *)
Lemma cut_at c a : free c a -> forall b r s, free c b -> a ++ c :: r = b ++ c :: s -> a = b /\ r = s.
Proof.
  induction 1 as [|x a N F IH]; intros [|y b] r s B E; cbn [List.app] in E; inversion B; subst.
  - injection E as ->. auto.
  - injection E as E1 _. congruence.
  - injection E as E1 _. congruence.
  - injection E as -> E. destruct (IH b r s ltac:(assumption) E) as (-> & ->). auto.
Qed.
(** comma-free, non-empty texts *)
Lemma joined_inj ts : Forall (fun t => free 44 t /\ t <> []) ts -> forall us, Forall (fun t => free 44 t /\ t <> []) us -> joined ts = joined us -> ts = us.
Proof.
  assert (NN : forall t qs, t <> [] -> joined (t :: qs) <> []) by (intros t [|u qs] N; cbn [joined]; [exact N|]; destruct t; [congruence|discriminate]).
  induction 1 as [|t ts (F & N) G IH]; intros us U E.
  - destruct U as [|u us (Fu & Nu) U]; [reflexivity|]. symmetry in E. destruct (NN u us Nu E).
  - destruct U as [|u us (Fu & Nu) U]; [destruct (NN t ts N E)|].
    destruct ts as [|t' ts], us as [|u' us].
    + cbn in E. subst. reflexivity.
    + exfalso. rewrite (joined_cons u) in E by discriminate. change (joined [t]) with t in E. subst t. unfold free in F. rewrite Forall_app in F. destruct F as (_ & F). inversion F; subst. congruence.
    + exfalso. rewrite (joined_cons t) in E by discriminate. change (joined [u]) with u in E. subst u. unfold free in Fu. rewrite Forall_app in Fu. destruct Fu as (_ & F'). inversion F'; subst. congruence.
    + rewrite !joined_cons in E by discriminate. apply cut_at in E; [|assumption..]. destruct E as (-> & E). injection E as E. f_equal. apply IH; assumption.
Qed.
Lemma itoa_plain x : free 44 (itoa x) /\ free 58 (itoa x) /\ itoa x <> [].
Proof.
  destruct (itoa_canonical x) as [((N & ds & F & _) & _)|(t & w & E & _ & ((N & ds & F & _) & _) & _)].
  - pose proof (ShortProps.digits10 _ _ F) as (E & D). split; [|split; [|exact N]]; rewrite E; clear -D; (induction D; constructor; [lia|assumption]).
  - pose proof (ShortProps.digits10 _ _ F) as (E' & D). rewrite E, E'. split; [|split; [|discriminate]]; (constructor; [lia|]); clear -D; (induction D; constructor; [lia|assumption]).
Qed.
Lemma itoa_inj x y : itoa x = itoa y -> x = y.
Proof. intros E. pose proof (itoa_canonical x) as A. rewrite E in A. eapply LongProofs2.canonical_signed_fun; [|exact A|apply itoa_canonical]; lia. Qed.
Lemma map_inj {A B} (f : A -> B) : (forall x y, f x = f y -> x = y) -> forall l k, map f l = map f k -> l = k.
Proof. intros I. induction l as [|x l IH]; intros [|y k] E; try discriminate; [reflexivity|]. injection E as E1 E2. f_equal; auto. Qed.

(** Lists and maps of integers can be read back: different contents give
    different texts. *)
Theorem C88_numbers_unambiguous : forall l k : list Z, al_toString itoa false l = al_toString itoa false k -> l = k.
Proof.
  intros l k E. rewrite !al_text in E. injection E as E. apply app_inv_tail in E. apply joined_inj in E.
  - apply (map_inj _ itoa_inj). exact E.
  - apply Forall_map, Forall_forall. intros x _. cbn. pose proof (itoa_plain x). tauto.
  - apply Forall_map, Forall_forall. intros x _. cbn. pose proof (itoa_plain x). tauto.
Qed.
Print Assumptions C88_numbers_unambiguous.
Theorem C88_number_maps_unambiguous : forall l k : list (Z * Z), hm_toString itoa itoa false false l = hm_toString itoa itoa false false k -> l = k.
Proof.
  assert (P : forall l : list (Z * Z), Forall (fun t => free 44 t /\ t <> []) (map (entry itoa itoa false false) l)).
  { intros l. apply Forall_map, Forall_forall. intros (x, y) _. unfold entry. cbn [fst snd]. pose proof (itoa_plain x). pose proof (itoa_plain y). split; [|destruct (itoa x); [tauto|discriminate]].
    unfold free. rewrite !Forall_app. split; [tauto|]. split; [repeat constructor; lia|]. change (element false (itoa y)) with (itoa y). tauto. }
  intros l k E. rewrite !hm_text in E. injection E as E. apply app_inv_tail in E. apply joined_inj in E; [|apply P..]. revert E. apply map_inj. intros (a, b) (c, d) E. unfold entry in E. cbn [fst snd] in E. 
  change (element false (itoa b)) with (itoa b) in E. change (element false (itoa d)) with (itoa d) in E.
  apply (cut_at 58 (itoa a)) in E; [|apply itoa_plain..]. destruct E as (E1 & E2). injection E2 as E2. apply itoa_inj in E1, E2. subst. reflexivity.
Qed.
Print Assumptions C88_number_maps_unambiguous.
(** So can lists of Strings without quotes that are not serialized. *)
Lemma plain_element s : plain s -> element true s = 34 :: s ++ [34].
Proof. intros (_ & N). destruct (element_written s) as [(S0 & _)|(_ & ->)]; [contradiction|reflexivity]. Qed.
Lemma quoted_inj l : Forall plain l -> forall k r s, Forall plain k -> hd 0 r <> 44 -> hd 0 s <> 44 -> hd 0 r <> 34 -> hd 0 s <> 34 -> joined (map (element true) l) ++ r = joined (map (element true) k) ++ s -> l = k /\ r = s.
Proof.
  induction 1 as [|t l P G IH]; intros k r s U R S0 R' S' E.
  - destruct U as [|u k Pu U]; [auto|]. exfalso. cbn [map] in E. cbn [joined List.app] in E. rewrite (plain_element u Pu) in E. apply R'. rewrite E. destruct (map (element true) k); reflexivity.
  - destruct U as [|u k Pu U].
    { exfalso. cbn [map] in E. cbn [joined List.app] in E. rewrite (plain_element t P) in E. apply S'. rewrite <- E. destruct (map (element true) l); reflexivity. }
    assert (Q : forall x m q, Forall plain (x :: m) -> exists z, joined (map (element true) (x :: m)) ++ q = 34 :: x ++ 34 :: z /\ (m = [] -> z = q) /\ (m <> [] -> z = [44; 32] ++ joined (map (element true) m) ++ q)).
    { clear. intros x m q H. inversion H; subst. cbn [map]. rewrite plain_element by assumption. destruct m as [|y m].
      - exists q. cbn [map joined]. split; [|split; [auto|congruence]]. cbn [List.app]. rewrite <- app_assoc. reflexivity.
      - exists ([44; 32] ++ joined (map (element true) (y :: m)) ++ q). split; [|split; [discriminate|auto]]. rewrite joined_cons by discriminate. cbn [List.app]. rewrite <- !app_assoc. reflexivity. }
    destruct (Q t l r) as (z & Z1 & Z2 & Z3); [constructor; assumption|]. destruct (Q u k s) as (y & Y1 & Y2 & Y3); [constructor; assumption|]. rewrite Z1, Y1 in E. injection E as E.
    apply (cut_at 34) in E; [|apply P|apply Pu]. destruct E as (-> & E). clear Q Z1 Y1. destruct l as [|t' l], k as [|u' k].
    + rewrite Z2, Y2 in E by reflexivity. auto.
    + rewrite Z2, Y3 in E by (reflexivity || discriminate). exfalso. apply R. rewrite E. reflexivity.
    + rewrite Z3, Y2 in E by (reflexivity || discriminate). exfalso. apply S0. rewrite <- E. reflexivity.
    + rewrite Z3, Y3 in E by discriminate. injection E as E. destruct (IH (u' :: k) r s U R S0 R' S' E) as (-> & ->). auto.
Qed.
Theorem C88_strings_unambiguous : forall l k, Forall plain l -> Forall plain k -> al_toString (fun s => s) true l = al_toString (fun s => s) true k -> l = k.
Proof.
  intros l k L K E. rewrite !al_text in E. injection E as E. apply (quoted_inj l L k [93] [93] K) in E; cbn; [tauto|lia..].
Qed.
Print Assumptions C88_strings_unambiguous.
Example C88_ex : al_toString (fun s => s) true [T "a"; T ""; T "[1, 2]"] = Ok (T "[""a"", """", [1, 2]]") /\ hm_toString (fun s => s) itoa true false [(T "x", 1); (T "y", -2)] = T "{""x"": 1, ""y"": -2}".
Proof. split; reflexivity. Qed.
(** In general the text of Strings is ambiguous, since nothing is escaped and
    serialized Strings are not quoted: it is neither JSON nor can the list be
    told from another. *)
Theorem C88_strings_ambiguous_refuted : forall a b : str, ~ serialized a -> ~ serialized b ->
  al_toString (fun s => s) true [a; b] = al_toString (fun s => s) true [a ++ T """, """ ++ b].
Proof.
  intros a b A B. rewrite !al_text. do 2 f_equal.
  cbn [map joined]. destruct (element_written a) as [(S0 & _)|(_ & ->)]; [contradiction|]. destruct (element_written b) as [(S0 & _)|(_ & ->)]; [contradiction|].
  destruct (element_written (a ++ T """, """ ++ b)) as [((t & S0) & _)|(_ & ->)].
  - exfalso. destruct a as [|c a]; [destruct S0 as [S0|S0]; discriminate|]. apply A. exists a. destruct S0 as [S0|S0]; injection S0 as -> _; [left|right]; reflexivity.
  - cbn [List.app]. rewrite <- !app_assoc. do 2 f_equal. cbn. rewrite <- app_assoc. reflexivity.
Qed.
Print Assumptions C88_strings_ambiguous_refuted.
Example C88_ambiguous_ex : al_toString (fun s => s) true [T "a"; T "b"] = al_toString (fun s => s) true [T "a"", ""b"]. Proof. reflexivity. Qed.
