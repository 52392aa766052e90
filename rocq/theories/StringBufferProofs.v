(** Proofs about the StringBuffer model: representation and one call. *)

From Coq Require Import ZArith List Lia Bool.
From Verif Require Import Base Bits TextLemmas CppText StringSpec CMem CharacterModel StringModel StringProofs2 StringBuilderSpec StringBuilderModel StringBuilderProofs StringBuilderProps StringBufferModel.
Import ListNotations.
Open Scope Z_scope.

(** The object holds [w]; [j] is the unused part of the block. *)
Definition rep (s : sb) (w : str) (j : block) : Prop :=
  buf s = map Some w ++ j /\ slen s = zlen w /\ scap s = zlen (buf s) /\ scap s <= int_max.
Definition zeros (j : block) : Prop := Forall (eq (Some 0)) j.
Definition blim : Z := 1073741823.

Lemma rep_sinv s w j : rep s w j -> sinv s w.
Proof. intros H. exists j. exact H. Qed.
Lemma rep_cap s w j : rep s w j -> scap s = zlen w + zlen j.
Proof. intros (E & _ & C & _). rewrite C, E, zlen_app, zlen_map_some. auto. Qed.
Lemma rep_len s w j : rep s w j -> slen s = zlen w.
Proof. intros (_ & L & _). auto. Qed.

Lemma firstn_ap {A} n (a b : list A) : n = length a -> firstn n (a ++ b) = a.
Proof. intros ->. rewrite firstn_app, Nat.sub_diag, firstn_O, app_nil_r, firstn_all. auto. Qed.
Lemma skipn_ap {A} n (a b : list A) : n = length a -> skipn n (a ++ b) = b.
Proof. intros ->. rewrite skipn_app, Nat.sub_diag, skipn_all. auto. Qed.
Lemma skipn_ap_more {A} n k (a b : list A) : n = (length a + k)%nat -> skipn n (a ++ b) = skipn k b.
Proof. intros ->. rewrite skipn_app, skipn_all2 by lia. cbn. f_equal. lia. Qed.
Lemma firstn_ap_more {A} n k (a b : list A) : n = (length a + k)%nat -> firstn n (a ++ b) = a ++ firstn k b.
Proof. intros ->. rewrite firstn_app, firstn_all2 by lia. do 2 f_equal. lia. Qed.
Lemma zeros_app a b : zeros a -> zeros b -> zeros (a ++ b).
Proof. apply Forall_app_2 || (intros; apply Forall_app; auto). Qed.
Lemma zeros_skipn n j : zeros j -> zeros (skipn n j).
Proof. unfold zeros. rewrite !Forall_forall. intros H x X. apply H. rewrite <- (firstn_skipn n j). apply in_app_iff. auto. Qed.
Lemma zeros_firstn n j : zeros j -> zeros (firstn n j).
Proof. unfold zeros. rewrite !Forall_forall. intros H x X. apply H. rewrite <- (firstn_skipn n j). apply in_app_iff. auto. Qed.
Lemma zeros_calloc n : zeros (c_calloc n).
Proof. unfold zeros, c_calloc. apply Forall_forall. intros x X. apply repeat_spec in X. auto. Qed.

Lemma grow_ok m minimum : minimum <= blim -> forall fuel cap, 0 <= cap < minimum -> minimum + 2 <= (cap + 2) * 2 ^ Z.of_nat fuel ->
  exists c, grow_loop m fuel cap minimum = Ok c /\ minimum <= c <= 2 * minimum.
Proof.
  unfold blim. intros M. induction fuel as [|f IH]; intros cap C F; [cbn in F; lia|]. cbn [grow_loop]. unfold smul, sadd. rewrite s32 by (unfold int_min, int_max; lia). cbn [bind]. rewrite s32 by (unfold int_min, int_max; lia). cbn [bind].
  destruct (Z.ltb_spec (cap * 2 + 2) minimum) as [Q|Q]; [|eexists; split; [reflexivity|]; lia].
  apply IH; [lia|]. rewrite Nat2Z.inj_succ, Z.pow_succ_r in F by lia. lia.
Qed.
Lemma b_ensure_ok m s w j n : rep s w j -> n <= blim ->
  exists s' j', b_ensureCapacity m s n = Ok s' /\ rep s' w j' /\ n <= scap s' /\ (n <= scap s -> s' = s /\ j' = j).
Proof.
  intros R N. pose proof (rep_cap s w j R) as CP. pose proof R as (E & L & C & B). pose proof (zlen_nonneg w) as W0. pose proof (zlen_nonneg j) as J0. unfold b_ensureCapacity. destruct (Z.leb_spec n 0) as [Q|Q]; [exists s, j; split; auto; split; auto; split; [lia|auto]|].
  destruct (Z.leb_spec n (scap s)) as [Q2|Q2]; [exists s, j; auto|].
  destruct (grow_ok m n N 40 (scap s)) as (c & -> & Hc); [lia|change (2 ^ Z.of_nat 40) with 1099511627776; unfold blim in N; lia|]. cbn [bind]. unfold blim in N.
  exists (mkSB (c_realloc (buf s) c) (slen s) c), (j ++ repeat None (Z.to_nat c - length (buf s))). split; auto. split; [|split; [cbn; lia|lia]].
  unfold rep. cbn [buf slen scap]. unfold c_realloc. assert (LB : (length (buf s) <= Z.to_nat c)%nat) by (unfold zlen in *; lia).
  rewrite firstn_all2 by auto. split; [now rewrite E, <- app_assoc|]. split; auto. split; [|unfold int_max; lia]. unfold zlen. rewrite app_length, repeat_length. lia.
Qed.

(** The block operations on a represented text. *)
Lemma zlen_splice w i j t : 0 <= i <= j -> j <= zlen w -> zlen (splice w i j t) = zlen w + zlen t - (j - i).
Proof. intros H1 H2. unfold splice. rewrite !zlen_app. unfold zlen in *. rewrite firstn_length, skipn_length. lia. Qed.
Lemma mem_in_ok b dst t off n a r : 0 <= n -> 0 <= off -> off + n <= zlen t -> zlen a = dst -> b = a ++ r -> n <= zlen r ->
  mem_in b dst t off n = Ok (a ++ map Some (part t off (off + n)) ++ skipn (Z.to_nat n) r).
Proof.
  intros N O T A -> R. pose proof (zlen_nonneg a). unfold mem_in. replace ((0 <=? n) && (0 <=? off) && (off + n <=? zlen t) && (0 <=? dst) && (dst + n <=? zlen (a ++ r))) with true by (rewrite zlen_app; lia).
  rewrite firstn_ap by (unfold zlen in *; lia). rewrite (skipn_ap_more _ (Z.to_nat n)) by (unfold zlen in *; lia). auto.
Qed.
Lemma insert_block w j p t off n : 0 <= p <= zlen w -> 0 <= n -> 0 <= off -> off + n <= zlen t -> n <= zlen j ->
  exists b1, memmove (map Some w ++ j) (p + n) p (zlen w - p) = Ok b1 /\ mem_in b1 p t off n = Ok (map Some (splice w p p (part t off (off + n))) ++ skipn (Z.to_nat n) j).
Proof.
  intros P N O T J. set (a := firstn (Z.to_nat p) w) in *. set (c := skipn (Z.to_nat p) w) in *. assert (EW : map Some w = map Some a ++ map Some c) by (unfold a, c; rewrite <- map_app, firstn_skipn; auto). rewrite EW.
  assert (LA : zlen a = p) by (unfold a, zlen in *; rewrite firstn_length; lia). assert (LC : zlen c = zlen w - p) by (unfold c, zlen in *; rewrite skipn_length; lia). pose proof (zlen_nonneg c) as C0.
  unfold memmove. rewrite !zlen_app, !zlen_map_some, LA, LC. replace ((0 <=? zlen w - p) && (0 <=? p) && (p + (zlen w - p) <=? p + (zlen w - p) + zlen j) && (0 <=? p + n) && (p + n + (zlen w - p) <=? p + (zlen w - p) + zlen j)) with true by lia.
  eexists. split; [reflexivity|]. rewrite <- app_assoc.
  rewrite (firstn_ap_more _ (Z.to_nat n)) by (rewrite map_length; unfold zlen in *; lia). rewrite (skipn_ap (Z.to_nat p)) by (rewrite map_length; unfold zlen in *; lia).
  rewrite (firstn_ap (Z.to_nat (zlen w - p))) by (rewrite map_length; unfold zlen in *; lia). rewrite (skipn_ap_more _ (length c + Z.to_nat n)) by (rewrite map_length; unfold zlen in *; lia).
  rewrite (skipn_ap_more _ (Z.to_nat n)) by (rewrite map_length; unfold zlen in *; lia). rewrite <- app_assoc.
  assert (LF : length (firstn (Z.to_nat n) (map Some c ++ j)) = Z.to_nat n) by (rewrite firstn_length, app_length, map_length; unfold zlen in *; lia).
  erewrite (mem_in_ok _ p t off n (map Some a)); [|exact N|exact O|exact T|rewrite zlen_map_some; auto|reflexivity|rewrite zlen_app; unfold zlen in *; rewrite LF; lia].
  rewrite (skipn_ap (Z.to_nat n)) by auto. unfold splice. fold a c. rewrite !map_app, <- !app_assoc. auto.
Qed.
Lemma rep_insert s w j p t off n : rep s w j -> 0 <= p <= zlen w -> 0 <= n -> 0 <= off -> off + n <= zlen t -> n <= zlen j ->
  exists b1 b2, memmove (buf s) (p + n) p (slen s - p) = Ok b1 /\ mem_in b1 p t off n = Ok b2 /\
    rep (mkSB b2 (zlen w + n) (scap s)) (splice w p p (part t off (off + n))) (skipn (Z.to_nat n) j).
Proof.
  intros R P N O T J. pose proof (rep_cap s w j R) as CP. destruct R as (E & L & C & B). destruct (insert_block w j p t off n P N O T J) as (b1 & E1 & E2). exists b1. eexists. rewrite E, L. split; eauto. split; eauto.
  assert (LS : zlen (splice w p p (part t off (off + n))) = zlen w + n) by (rewrite zlen_splice, zlen_part by lia; lia).
  unfold rep. cbn [buf slen scap]. split; auto. split; auto. split; auto. rewrite zlen_app, zlen_map_some, LS. unfold zlen in *. rewrite skipn_length. lia.
Qed.
Lemma part_all (t : str) : part t 0 (0 + zlen t) = t.
Proof. unfold part, zlen. cbn [Z.to_nat skipn]. replace (Z.to_nat (0 + Z.of_nat (length t) - 0)) with (length t) by lia. apply firstn_all. Qed.
Lemma splice_app w p t : p = zlen w -> splice w p p t = w ++ t.
Proof. intros ->. apply splice_end. Qed.
Lemma memmove_nil b dst src : 0 <= src <= zlen b -> 0 <= dst <= zlen b -> memmove b dst src 0 = Ok b.
Proof. intros H1 H2. unfold memmove. replace ((0 <=? 0) && (0 <=? src) && (src + 0 <=? zlen b) && (0 <=? dst) && (dst + 0 <=? zlen b)) with true by lia. cbn [Z.to_nat firstn app]. rewrite Z.add_0_r, firstn_skipn. auto. Qed.

(** append *)
Lemma rep_appendArray m s w j t off n : rep s w j -> 0 <= off -> 0 <= n -> off + n <= zlen t -> zlen t <= int_max -> zlen w + n <= blim ->
  exists s' j', b_appendArray m s t off n = Ok s' /\ rep s' (w ++ part t off (off + n)) j' /\ (zlen w + n <= scap s -> scap s' = scap s /\ (zeros j -> zeros j')).
Proof.
  intros R O N T TL L. pose proof (zlen_nonneg w) as W0. unfold blim in L. unfold b_appendArray. replace ((off <? 0) || (n <? 0)) with false by lia. unfold sadd at 1. rewrite s32 by (unfold int_min, int_max in *; lia). cbn [bind]. replace (zlen t <? off + n) with false by lia.
  rewrite (rep_len s w j R). unfold sadd at 1. rewrite s32 by (unfold int_min, int_max in *; lia). cbn [bind]. destruct (b_ensure_ok m s w j (zlen w + n) R L) as (s1 & j1 & -> & R1 & C1 & K1). cbn [bind].
  pose proof (rep_cap s1 w j1 R1) as CP1. destruct (rep_insert s1 w j1 (zlen w) t off n R1) as (b1 & b2 & E1 & E2 & R2); try lia.
  rewrite (rep_len s1 w j1 R1), Z.sub_diag, memmove_nil in E1. 2,3: destruct R1 as (_ & _ & <- & _); lia. injection E1 as <-.
  rewrite (rep_len s1 w j1 R1), E2. cbn [bind]. unfold sadd. rewrite s32 by (unfold int_min, int_max in *; lia). cbn [bind]. eexists _, _. split; [reflexivity|]. rewrite splice_end in R2. split; [exact R2|].
  intros F. destruct (K1 F) as (-> & ->). split; auto. intros Z. now apply zeros_skipn.
Qed.
Lemma rep_append m s w j t : rep s w j -> zlen w + zlen t <= blim -> exists s' j', b_append m s t = Ok s' /\ rep s' (w ++ t) j' /\ (zlen w + zlen t <= scap s -> scap s' = scap s /\ (zeros j -> zeros j')).
Proof.
  intros R L. pose proof (zlen_nonneg w). pose proof (zlen_nonneg t). unfold b_append. destruct (rep_appendArray m s w j t 0 (zlen t) R) as (s' & j' & -> & R' & Z'); try lia; [unfold blim, int_max in *; lia|]. rewrite part_all in R'. eauto.
Qed.
(** insert *)
Lemma rep_insertArray m s w j p t off n : rep s w j -> 0 <= p <= zlen w -> 0 <= off -> 0 <= n -> off + n <= zlen t -> zlen t <= int_max -> zlen w + n <= blim ->
  exists s' j', b_insertArray m s p t off n = Ok s' /\ rep s' (splice w p p (part t off (off + n))) j' /\ (zlen w + n <= scap s -> scap s' = scap s /\ (zeros j -> zeros j')).
Proof.
  intros R P O N T TL L. pose proof (zlen_nonneg w) as W0. unfold blim in L. unfold b_insertArray. rewrite (rep_len s w j R). replace ((p <? 0) || (zlen w <? p) || (off <? 0) || (n <? 0)) with false by lia. unfold sadd at 1. rewrite s32 by (unfold int_min, int_max in *; lia). cbn [bind]. replace (zlen t <? off + n) with false by lia.
  unfold sadd at 1. rewrite s32 by (unfold int_min, int_max in *; lia). cbn [bind]. destruct (b_ensure_ok m s w j (zlen w + n) R L) as (s1 & j1 & -> & R1 & C1 & K1). cbn [bind].
  pose proof (rep_cap s1 w j1 R1) as CP1. destruct (rep_insert s1 w j1 p t off n R1) as (b1 & b2 & E1 & E2 & R2); try lia.
  rewrite E1. cbn [bind]. rewrite E2. cbn [bind]. rewrite (rep_len s1 w j1 R1). unfold sadd. rewrite s32 by (unfold int_min, int_max in *; lia). cbn [bind]. eexists _, _. split; [reflexivity|]. split; [exact R2|].
  intros F. destruct (K1 F) as (-> & ->). split; auto. intros Z. now apply zeros_skipn.
Qed.
Lemma rep_insert_text m s w j p t : rep s w j -> 0 <= p <= zlen w -> zlen w + zlen t <= blim -> exists s' j', b_insert m s p t = Ok s' /\ rep s' (splice w p p t) j' /\ (zlen w + zlen t <= scap s -> scap s' = scap s /\ (zeros j -> zeros j')).
Proof.
  intros R P L. pose proof (zlen_nonneg w). pose proof (zlen_nonneg t). unfold b_insert. destruct (rep_insertArray m s w j p t 0 (zlen t) R) as (s' & j' & -> & R' & Z'); try lia; [unfold blim, int_max in *; lia|]. rewrite part_all in R'. eauto.
Qed.

(** deletes: moves [end - start] bytes more than the text holds *)
Lemma rep_delete s w j i e : rep s w j -> 0 <= i <= e -> e <= zlen w -> e - i <= zlen j ->
  exists b, memmove (buf s) i e (slen s - i) = Ok b /\ rep (mkSB b (zlen w - (e - i)) (scap s)) (splice w i e []) (firstn (Z.to_nat (e - i)) j ++ j).
Proof.
  intros R I E J. pose proof (rep_cap s w j R) as CP. destruct R as (EB & L & C & B). pose proof (zlen_nonneg j) as J0. rewrite EB, L in *. unfold memmove. rewrite zlen_app, zlen_map_some. replace ((0 <=? zlen w - i) && (0 <=? e) && (e + (zlen w - i) <=? zlen w + zlen j) && (0 <=? i) && (i + (zlen w - i) <=? zlen w + zlen j)) with true by lia.
  eexists. split; [reflexivity|].
  assert (E1 : firstn (Z.to_nat i) (map Some w ++ j) = map Some (firstn (Z.to_nat i) w)) by (rewrite firstn_app, firstn_map, map_length; replace (Z.to_nat i - length w)%nat with 0%nat by (unfold zlen in *; lia); rewrite firstn_O, app_nil_r; auto).
  assert (E2 : skipn (Z.to_nat e) (map Some w ++ j) = map Some (skipn (Z.to_nat e) w) ++ j) by (rewrite skipn_app, skipn_map, map_length; replace (Z.to_nat e - length w)%nat with 0%nat by (unfold zlen in *; lia); auto).
  assert (E3 : firstn (Z.to_nat (zlen w - i)) (map Some (skipn (Z.to_nat e) w) ++ j) = map Some (skipn (Z.to_nat e) w) ++ firstn (Z.to_nat (e - i)) j) by (apply firstn_ap_more; rewrite map_length, skipn_length; unfold zlen in *; lia).
  assert (E4 : skipn (Z.to_nat (i + (zlen w - i))) (map Some w ++ j) = j) by (apply skipn_ap; rewrite map_length; unfold zlen; lia).
  rewrite E1, E2, E3, E4. unfold rep. cbn [buf slen scap]. rewrite zlen_splice by lia. change (zlen (@nil Z)) with 0. split; [unfold splice; cbn [app]; now rewrite map_app, <- !app_assoc|]. split; [lia|]. split; auto.
  rewrite !zlen_app, !zlen_map_some, C, zlen_app, zlen_map_some. unfold zlen in *. rewrite !firstn_length, skipn_length. lia.
Qed.
Lemma rep_delete_end s w j i : rep s w j -> 0 <= i <= zlen w -> zlen w <= zlen j ->
  exists b, memmove (buf s) i (slen s) (slen s) = Ok b /\ rep (mkSB b i (scap s)) (firstn (Z.to_nat i) w) (firstn (length w) j ++ skipn (Z.to_nat i) j).
Proof.
  intros R I J. pose proof (rep_cap s w j R) as CP. destruct R as (EB & L & C & B). pose proof (zlen_nonneg w) as W0. rewrite EB, L in *. unfold memmove. rewrite zlen_app, zlen_map_some. replace ((0 <=? zlen w) && (0 <=? zlen w) && (zlen w + zlen w <=? zlen w + zlen j) && (0 <=? i) && (i + zlen w <=? zlen w + zlen j)) with true by lia.
  eexists. split; [reflexivity|].
  assert (E1 : firstn (Z.to_nat i) (map Some w ++ j) = map Some (firstn (Z.to_nat i) w)) by (rewrite firstn_app, firstn_map, map_length; replace (Z.to_nat i - length w)%nat with 0%nat by (unfold zlen in *; lia); rewrite firstn_O, app_nil_r; auto).
  assert (E2 : skipn (Z.to_nat (zlen w)) (map Some w ++ j) = j) by (apply skipn_ap; rewrite map_length; unfold zlen; lia).
  assert (E4 : skipn (Z.to_nat (i + zlen w)) (map Some w ++ j) = skipn (Z.to_nat i) j) by (apply skipn_ap_more; rewrite map_length; unfold zlen; lia).
  rewrite E1, E2, E4. unfold rep. cbn [buf slen scap]. replace (Z.to_nat (zlen w)) with (length w) by (unfold zlen; lia). split; auto. split; [unfold zlen in *; rewrite firstn_length; lia|]. split; auto.
  rewrite !zlen_app, zlen_map_some. rewrite CP. unfold zlen in *. rewrite !firstn_length, skipn_length. lia.
Qed.

(** replace *)
Lemma rep_replace_move s w j i e t : rep s w j -> 0 <= i <= e -> e <= zlen w -> zlen w - e <= zlen t -> e + zlen t <= scap s -> i + 2 * zlen t <= scap s ->
  exists b1 b2 j', memmove (buf s) (i + zlen t) e (zlen t) = Ok b1 /\ mem_in b1 i t 0 (zlen t) = Ok b2 /\ rep (mkSB b2 (zlen w + zlen t - e + i) (scap s)) (splice w i e t) j' /\ (zlen w <= i + 2 * zlen t -> zeros j -> zeros j').
Proof.
  intros R I E T C1 C2. pose proof (rep_cap s w j R) as CP. destruct R as (EB & L & C & B). pose proof (zlen_nonneg t) as T0. rewrite EB in *. set (bb := map Some w ++ j) in *. assert (LB : zlen bb = scap s) by auto.
  assert (E1 : firstn (Z.to_nat i) bb = map Some (firstn (Z.to_nat i) w)) by (unfold bb; rewrite firstn_app, firstn_map, map_length; replace (Z.to_nat i - length w)%nat with 0%nat by (unfold zlen in *; lia); rewrite firstn_O, app_nil_r; auto).
  assert (E2 : skipn (Z.to_nat e) bb = map Some (skipn (Z.to_nat e) w) ++ j) by (unfold bb; rewrite skipn_app, skipn_map, map_length; replace (Z.to_nat e - length w)%nat with 0%nat by (unfold zlen in *; lia); auto).
  assert (E3 : firstn (length t) (map Some (skipn (Z.to_nat e) w) ++ j) = map Some (skipn (Z.to_nat e) w) ++ firstn (Z.to_nat (zlen t - (zlen w - e))) j) by (apply firstn_ap_more; rewrite map_length, skipn_length; unfold zlen in *; lia).
  unfold memmove. replace ((0 <=? zlen t) && (0 <=? e) && (e + zlen t <=? zlen bb) && (0 <=? i + zlen t) && (i + zlen t + zlen t <=? zlen bb)) with true by lia.
  replace (Z.to_nat (i + zlen t)) with (Z.to_nat i + length t)%nat by (unfold zlen; lia). rewrite firstn_add, E1, E2. replace (Z.to_nat (zlen t)) with (length t) by (unfold zlen; lia). rewrite E3, <- app_assoc.
  eexists _, _, _. split; [reflexivity|]. split.
  { apply mem_in_ok with (a := map Some (firstn (Z.to_nat i) w)); try lia; [rewrite zlen_map_some; unfold zlen in *; rewrite firstn_length; lia|reflexivity|]. rewrite zlen_app. unfold zlen in *. rewrite firstn_length, skipn_length. lia. }
  rewrite part_all. rewrite skipn_ap by (rewrite firstn_length, skipn_length; unfold zlen in *; lia).
  split.
  - unfold rep. cbn [buf slen scap]. rewrite zlen_splice by lia. split; [unfold splice; rewrite !map_app, <- !app_assoc; reflexivity|]. split; [lia|]. split; auto. unfold splice. rewrite !zlen_app, !zlen_map_some. unfold zlen in *. rewrite !firstn_length, !skipn_length. lia.
  - intros W Z. apply zeros_app; [now apply zeros_firstn|]. unfold bb. rewrite (skipn_ap_more _ (Z.to_nat (i + 2 * zlen t - zlen w))) by (rewrite map_length; unfold zlen in *; lia). now apply zeros_skipn.
Qed.
Lemma rep_replace_same s w j i e t : rep s w j -> 0 <= i <= e -> e <= zlen w -> zlen t = e - i -> e + zlen t <= scap s ->
  exists b1 b2, memmove (buf s) (i + zlen t) e (zlen t) = Ok b1 /\ mem_in b1 i t 0 (zlen t) = Ok b2 /\ rep (mkSB b2 (zlen w + zlen t - e + i) (scap s)) (splice w i e t) j.
Proof.
  intros R I E T C1. pose proof (rep_cap s w j R) as CP. destruct R as (EB & L & C & B). pose proof (zlen_nonneg t) as T0. 
  assert (EQ : memmove (buf s) (i + zlen t) e (zlen t) = Ok (buf s)).
  { unfold memmove. replace ((0 <=? zlen t) && (0 <=? e) && (e + zlen t <=? zlen (buf s)) && (0 <=? i + zlen t) && (i + zlen t + zlen t <=? zlen (buf s))) with true by lia. replace (i + zlen t) with e by lia.
    f_equal. rewrite <- (firstn_skipn (Z.to_nat e) (buf s)) at 4. f_equal. rewrite <- (firstn_skipn (Z.to_nat (zlen t)) (skipn (Z.to_nat e) (buf s))) at 2. f_equal. rewrite skipn_skipn'. f_equal. lia. }
  rewrite EQ. exists (buf s). eexists. split; [reflexivity|]. assert (E1 : buf s = map Some (firstn (Z.to_nat i) w) ++ map Some (skipn (Z.to_nat i) w) ++ j) by (rewrite app_assoc, <- map_app, firstn_skipn; auto).
  split. { eapply mem_in_ok; [lia|lia|lia| |exact E1|]; [rewrite zlen_map_some; unfold zlen in *; rewrite firstn_length; lia|]. rewrite zlen_app, zlen_map_some. pose proof (zlen_nonneg j). unfold zlen in *. rewrite skipn_length. lia. }
  rewrite part_all. rewrite skipn_app, skipn_map, skipn_skipn', map_length, skipn_length. replace (Z.to_nat (zlen t) - (length w - Z.to_nat i))%nat with 0%nat by (unfold zlen in *; lia). cbn [skipn]. replace (Z.to_nat i + Z.to_nat (zlen t))%nat with (Z.to_nat e) by lia.
  unfold rep. cbn [buf slen scap]. rewrite zlen_splice by lia. split; [unfold splice; rewrite !map_app, <- !app_assoc; reflexivity|]. split; [lia|]. split; auto. rewrite CP, !zlen_app, !zlen_map_some. unfold zlen in *. rewrite firstn_length, skipn_length. lia.
Qed.

(** setLength *)
Lemma zero_down_ok : forall fuel (p q z : block) i, zlen p + zlen q = i + 1 -> -1 <= i -> (length q < fuel)%nat -> zero_down fuel (p ++ q ++ z) i (zlen p) = Ok (p ++ repeat (Some 0) (length q) ++ z).
Proof.
  induction fuel as [|f IH]; intros p q z i L I F; [lia|]. cbn [zero_down]. pose proof (zlen_nonneg p). destruct (Z.leb_spec (zlen p) i) as [Q|Q].
  - destruct (@exists_last _ q) as (q' & x & ->). { intros ->. cbn in L. lia. } rewrite zlen_app in L. change (zlen [x]) with 1 in L. rewrite app_length in F. cbn [length] in F.
    replace (p ++ (q' ++ [x]) ++ z) with ((p ++ q') ++ x :: z) by (rewrite <- !app_assoc; auto). rewrite mset_mid by (rewrite zlen_app; lia). cbn [bind]. rewrite <- app_assoc. rewrite IH by lia. f_equal. f_equal. rewrite app_length. cbn [length]. rewrite repeat_app, <- app_assoc. auto.
  - assert (q = []) as -> by (destruct q; auto; rewrite zlen_cons in L; pose proof (zlen_nonneg q); lia). auto.
Qed.
Lemma rep_shrink s w j k : rep s w j -> 0 <= k <= zlen w -> j <> [] ->
  exists b j', zero_down (length (buf s) + 2) (buf s) (slen s) k = Ok b /\ rep (mkSB b k (scap s)) (firstn (Z.to_nat k) w) j' /\ (zeros j -> zeros j').
Proof.
  intros R K N. pose proof (rep_cap s w j R) as CP. destruct R as (EB & L & C & B). destruct j as [|x j]; [congruence|].
  assert (E1 : buf s = map Some (firstn (Z.to_nat k) w) ++ (map Some (skipn (Z.to_nat k) w) ++ [x]) ++ j) by (rewrite EB, <- (firstn_skipn (Z.to_nat k) w) at 1; rewrite map_app, <- !app_assoc; auto).
  assert (LK : zlen (map Some (firstn (Z.to_nat k) w)) = k) by (rewrite zlen_map_some; unfold zlen in *; rewrite firstn_length; lia).
  assert (LQ : zlen (map Some (skipn (Z.to_nat k) w) ++ [x]) = zlen w - k + 1) by (rewrite zlen_app, zlen_map_some; change (zlen [x]) with 1; unfold zlen in *; rewrite skipn_length; lia).
  pose proof (zero_down_ok (length (buf s) + 2) (map Some (firstn (Z.to_nat k) w)) (map Some (skipn (Z.to_nat k) w) ++ [x]) j (slen s)) as ZD. rewrite <- E1, LK in ZD.
  eexists _, _. split. { apply ZD; [lia|lia|]. rewrite E1, !app_length. lia. }
  split; [unfold rep; cbn [buf slen scap]; split; [reflexivity|]; split; [unfold zlen in *; rewrite firstn_length; lia|]; split; auto; rewrite C, E1, !zlen_app; unfold zlen; rewrite repeat_length, !app_length; lia|].
  intros Z. apply zeros_app; [apply (zeros_calloc (Z.of_nat _)) || (unfold zeros; apply Forall_forall; intros y Y; apply repeat_spec in Y; auto)|]. inversion Z; auto.
Qed.
Lemma rep_extend s w j k : rep s w j -> zlen w < k -> k < scap s ->
  exists b j', copy_in (Z.to_nat k + 2) (fun _ => Ok 0) (buf s) (slen s) (slen s) (k + 1) = Ok b /\ rep (mkSB b k (scap s)) (w ++ repeat 0 (Z.to_nat k - length w)) j' /\ (zeros j -> zeros j').
Proof.
  intros R K1 K2. pose proof (rep_cap s w j R) as CP. destruct R as (EB & L & C & B). set (n := (Z.to_nat k - length w)%nat). assert (LN : Z.of_nat n = k - zlen w) by (unfold n, zlen in *; lia).
  assert (E1 : buf s = map Some w ++ firstn (S n) j ++ skipn (S n) j) by (now rewrite firstn_skipn).
  assert (LF : length (firstn (S n) j) = S n) by (rewrite firstn_length; unfold zlen in *; lia).
  eexists _, _. split. { rewrite E1. apply (copy_in_ok (repeat 0 (S n))); [rewrite repeat_length; auto|rewrite zlen_map_some; auto|unfold zlen in *; rewrite repeat_length; lia| |rewrite repeat_length; unfold zlen in *; lia].
    intros q x X. apply znth_Some_lt in X as X2. rewrite znth_nth in X by lia. apply nth_error_In, repeat_spec in X. subst. auto. }
  assert (RE : map Some (repeat 0 (S n)) = map Some (repeat 0 n) ++ [Some 0]). { replace (S n) with (n + 1)%nat by lia. rewrite repeat_app, map_app. auto. }
  rewrite RE. split; [unfold rep; cbn [buf slen scap]; split; [rewrite map_app, <- !app_assoc; reflexivity|]; split; [rewrite zlen_app; unfold zlen in *; rewrite repeat_length; lia|]; split; auto|].
  - rewrite CP, !zlen_app, !zlen_map_some. change (zlen [Some 0]) with 1. unfold zlen in *. rewrite repeat_length, skipn_length. lia.
  - intros Z. cbn [app]. constructor; auto. now apply zeros_skipn.
Qed.

(** reverse, setCharAt, subString, toString, trimToSize, copies *)
Lemma rep_reverse s w j : rep s w j -> Forall byte_ok w -> exists s', b_reverse s = Ok s' /\ rep s' (rev w) j.
Proof.
  intros R BK. pose proof (rep_cap s w j R) as CP. destruct R as (E & L & C & B). unfold b_reverse.
  pose proof (reverse_loop_ok (S (length (buf s))) [] w [] j (slen s) 0) as RV. cbn [rev app] in RV. rewrite !app_nil_r in RV. rewrite <- E in RV. rewrite RV; auto.
  - cbn [bind]. eexists. split; [reflexivity|]. unfold rep. cbn [buf slen scap]. split; auto. split; [rewrite zlen_rev; auto|]. split; auto. rewrite CP, zlen_app, zlen_map_some, zlen_rev. auto.
  - rewrite E, app_length, map_length. lia.
Qed.
Lemma rep_set s w j i c : rep s w j -> 0 <= i < zlen w -> exists b, mset (buf s) i c = Ok b /\ rep (mkSB b (slen s) (scap s)) (splice w i (i + 1) [c]) j.
Proof.
  intros R I. pose proof (rep_cap s w j R) as CP. destruct R as (E & L & C & B). destruct (znth_ex w i I) as (x & X).
  assert (W : w = firstn (Z.to_nat i) w ++ x :: skipn (Z.to_nat (i + 1)) w).
  { rewrite <- (firstn_skipn (Z.to_nat i) w) at 1. f_equal. rewrite znth_nth in X by lia. replace (Z.to_nat (i + 1)) with (S (Z.to_nat i)) by lia. clear - X. revert X. generalize (Z.to_nat i). induction w as [|y w IH]; intros [|n] X; cbn in *; try discriminate; [congruence|]. now apply IH. }
  assert (LF : zlen (map Some (firstn (Z.to_nat i) w)) = i) by (rewrite zlen_map_some; unfold zlen in *; rewrite firstn_length; lia).
  assert (E1 : buf s = map Some (firstn (Z.to_nat i) w) ++ Some x :: (map Some (skipn (Z.to_nat (i + 1)) w) ++ j)) by (rewrite E, W at 1; rewrite map_app, <- app_assoc; auto).
  eexists. split. { rewrite E1. apply mset_mid. auto. }
  unfold rep. cbn [buf slen scap]. rewrite zlen_splice by lia. change (zlen [c]) with 1. split; [unfold splice; rewrite !map_app, <- !app_assoc; reflexivity|]. split; [lia|]. split; auto. rewrite zlen_app, LF, zlen_cons, zlen_app, zlen_map_some. rewrite CP. pose proof (zlen_nonneg w). assert (zlen (skipn (Z.to_nat (i + 1)) w) = zlen w - (i + 1)) by (unfold zlen in *; rewrite skipn_length; lia). lia.
Qed.
Lemma rep_sub s w j i e : rep s w j -> 0 <= i -> i < zlen w -> i <= e -> e <= zlen w -> b_subString s i e = Ok (cstr (part w i e)).
Proof.
  intros R H1 H2 H3 H4. pose proof (rep_sinv s w j R) as I. unfold b_subString. rewrite (rep_len s w j R). replace ((i <? 0) || (e <? 0)) with false by lia. replace ((zlen w <=? i) || (zlen w <? e) || (e <? i)) with false by lia.
  pose proof (zlen_part w i e (conj H1 H3) H4) as LP.
  assert (Q : c_calloc (e - i + 1) = [] ++ repeat (Some 0) (length (part w i e)) ++ [Some 0]). { unfold c_calloc. replace (Z.to_nat (e - i + 1)) with (length (part w i e) + 1)%nat by (unfold zlen in LP; lia). cbn [app]. now rewrite repeat_app. }
  rewrite Q. rewrite (copy_in_ok (part w i e) _ (mget (buf s)) [] (repeat (Some 0) (length (part w i e))) [Some 0] 0 i e); auto.
  - cbn [bind app]. apply c_string_ok.
  - now rewrite repeat_length.
  - lia.
  - intros k x K. eapply mget_content; eauto. eapply znth_part; eauto; lia.
  - unfold part. destruct I as (j' & -> & _). rewrite app_length, map_length, firstn_length, skipn_length. lia.
Qed.
Lemma rep_trim s w j : rep s w j -> exists j', rep (b_trimToSize s) w j' /\ slen (b_trimToSize s) = scap (b_trimToSize s).
Proof.
  intros R. pose proof (rep_cap s w j R) as CP. pose proof R as (E & L & C & B). pose proof (zlen_nonneg j) as J0. unfold b_trimToSize. destruct (Z.leb_spec (scap s) (slen s)); [exists j; split; auto; lia|].
  exists []. split; auto. unfold rep. cbn [buf slen scap]. unfold c_realloc. rewrite E, firstn_ap by (rewrite map_length; unfold zlen in *; lia). replace (Z.to_nat (slen s) - length (map Some w ++ j))%nat with 0%nat by (rewrite app_length, map_length; unfold zlen in *; lia). cbn [repeat]. split; auto. split; auto. split; [|lia]. rewrite zlen_app, zlen_map_some. change (zlen (@nil (option Z))) with 0. lia.
Qed.
Lemma rep_copy s w j : rep s w j -> exists s' j', b_copy s = Ok s' /\ rep s' w j' /\ scap s' = scap s /\ zeros j'.
Proof.
  intros R. pose proof (rep_sinv s w j R) as I. pose proof (rep_cap s w j R) as CP. destruct R as (E & L & C & B). pose proof (zlen_nonneg w) as W0. pose proof (zlen_nonneg j) as J0. unfold b_copy.
  assert (LC : zlen (c_calloc (scap s)) = scap s) by (apply zlen_calloc; lia).
  assert (Q : c_calloc (scap s) = [] ++ firstn (length w) (c_calloc (scap s)) ++ skipn (length w) (c_calloc (scap s))) by (cbn; now rewrite firstn_skipn). rewrite Q.
  rewrite (copy_in_ok w _ (mget (buf s)) [] _ _ 0 0 (slen s)); auto.
  - cbn [bind app]. eexists _, _. split; [reflexivity|]. split; [|split; [auto|apply zeros_skipn, zeros_calloc]]. unfold rep. cbn. split; auto. split; auto. split; auto. rewrite zlen_app, zlen_map_some. unfold zlen in *. rewrite skipn_length. lia.
  - rewrite firstn_length. unfold zlen in *. lia.
  - intros k x K. rewrite Z.add_0_l. eapply mget_content; eauto.
  - rewrite E, app_length, map_length. lia.
Qed.
Lemma rep_terminated s w j : rep s w j -> zeros j -> zlen w < scap s -> exists z, j = Some 0 :: z.
Proof. intros R ZE L. rewrite (rep_cap s w j R) in L. destruct j as [|x z]; [change (zlen (@nil (option Z))) with 0 in L; lia|]. inversion ZE; subst. eauto. Qed.
Lemma rep_toString s w j z : rep s w j -> j = Some 0 :: z -> b_toString s = Ok (cstr w).
Proof. intros (E & _) ->. unfold b_toString. rewrite E. apply c_string_ok. Qed.
