(** Displacement paths and the search for a place for a new key. *)

From Coq Require Import ZArith List Lia Bool.
From Verif Require Import Base Bits CuckooModel CuckooProofs1 CuckooProofs2 CuckooProofs3 CuckooProofs4.
Import ListNotations.
Open Scope Z_scope.

Section Proofs.
Context {K V : Type} (hash : K -> Z) (keq : K -> K -> bool) (simple : bool).
Context (keq_spec : forall a b, keq a b = true <-> a = b).
Notation entry := (@entry K V). Notation table := (@table K V). Notation cells := (@cells K V).
Notation I1 := (I1 hash). Notation I2 := (I2 hash). Notation view := (view hash).
Notation wf := (wf hash). Notation same := (same hash). Notation shape := (shape hash).
Notation pk k := (partial_key (hash k)).

(** A path: each record holds an entry whose other bucket is the next one. *)
Definition start (rs : list crecord) (b : Z) : Z := match rs with [] => b | r :: _ => r_bucket r end.
Fixpoint linked (c : cells) (h : Z) (rs : list crecord) (b : Z) : Prop :=
  match rs with
  | [] => True
  | r :: rs' => (exists e, c (r_bucket r) (r_slot r) = Some e /\ r_hash r = hash (e_key e) /\ alt_index h (e_part e) (r_bucket r) = start rs' b) /\ linked c h rs' b
  end.
Definition place (r : crecord) : Z * Z := (r_bucket r, r_slot r).
Lemma start_app a b x : start (a ++ b) x = start a (start b x).
Proof. destruct a; reflexivity. Qed.
Lemma linked_app c h a b x : linked c h (a ++ b) x <-> linked c h a (start b x) /\ linked c h b x.
Proof. induction a as [|r a IH]; cbn; [tauto|]. rewrite IH, start_app. tauto. Qed.
Lemma linked_walks c h rs : forall x, linked c h rs x -> walks c h (start rs x) (map r_slot rs) x.
Proof. induction rs as [|r rs IH]; intros x L; cbn in *; [reflexivity|]. destruct L as [(e & E & _ & A) L]. exists e. split; [assumption|]. rewrite A. now apply IH. Qed.
Lemma linked_frame c c' h rs x : (forall r, In r rs -> c' (r_bucket r) (r_slot r) = c (r_bucket r) (r_slot r)) -> linked c h rs x -> linked c' h rs x.
Proof.
  induction rs as [|r rs IH]; cbn; [auto|]. intros F [(e & E & H) L]. split; [exists e; rewrite F by auto; auto|]. apply IH; [|assumption]. intros; apply F; auto.
Qed.
Lemma linked_ext c c' h rs x : (forall i s, c' i s = c i s) -> linked c h rs x -> linked c' h rs x.
Proof. intros E. apply linked_frame. intros; apply E. Qed.

(** The way to the nearest empty slot uses no slot twice. *)
Lemma nodup_path c h i1 i2 r0 rs b s : (r0 = 0 \/ r0 = 1) -> linked c h rs b -> start rs b = root i1 i2 r0 -> ok_slots (map r_slot rs) -> c b s = None -> 0 <= s < 4 ->
  (forall n b', (n < length rs)%nat -> reach c h i1 i2 n b' -> full c b') -> NoDup (map place rs).
Proof.
  intros R L S OK N SR FU.
  assert (X : forall rs1 r rs2 r' rs3, rs = rs1 ++ r :: rs2 ++ r' :: rs3 -> place r = place r' -> False).
  { intros rs1 r rs2 r' rs3 E P. refine (FU (length (rs1 ++ r' :: rs3)) b _ _ s SR N); [|exists r0, (map r_slot (rs1 ++ r' :: rs3))].
    - rewrite E, !app_length. cbn. rewrite app_length. cbn. lia.
    - split; [assumption|]. split; [apply map_length|]. split.
      + unfold ok_slots in *. rewrite E in OK. rewrite !map_app in *. cbn [map] in *. rewrite map_app in OK. cbn [map] in OK.
        apply Forall_app in OK. destruct OK as [O1 O2]. apply Forall_app. split; [assumption|]. inversion O2; subst. apply Forall_app in H2. apply H2.
      + assert (L1 := L). rewrite E in L1. apply linked_app in L1. destruct L1 as [L1 L2]. cbn [linked] in L2. destruct L2 as [_ L2]. apply linked_app in L2. destruct L2 as [_ L3].
        cbn [start] in L1. rewrite <- S, E, start_app. cbn [start]. rewrite map_app. apply walks_app. exists (r_bucket r). split; [apply linked_walks, L1|].
        unfold place in P. injection P as P1 P2. rewrite P1. apply (linked_walks c h (r' :: rs3) b L3). }
  clear - X. induction rs as [|r rs IH]; cbn; [constructor|]. constructor.
  - intros I. apply in_map_iff in I. destruct I as (r' & P & I). apply in_split in I. destruct I as (a & b & ->). exact (X [] r a r' b eq_refl (eq_sym P)).
  - apply IH. intros rs1 a rs2 a' rs3 E P. apply (X (r :: rs1) a rs2 a' rs3); [cbn; now rewrite E|assumption].
Qed.

(** Reading the path (1422-1448). *)
Lemma follow_ok c h : 0 <= h -> shape h c -> forall ss b b' s t, wf t -> hp t = h -> (forall i s, view t i s = c i s) -> 0 <= b < 2 ^ h ->
  walks c h b ss b' -> c b' s = None ->
  exists t' rs, follow hash b (ss ++ [s]) t = Done t' (rs ++ [mkR b' s 0]) /\ wf t' /\ same t t' /\ linked c h rs b' /\ start rs b' = b /\ map r_slot rs = ss.
Proof.
  intros H SH. induction ss as [|x ss IH]; intros b b' s t W HT VT B Wk N; cbn [app follow].
  - cbn in Wk. subst b'. destruct (lock_one_ok hash b t W ltac:(rewrite HT; assumption)) as (t1 & E1 & W1 & S1 & M1). rewrite E1. cbn [rbind].
    rewrite <- (view_cell hash) by (rewrite ?(s_hp _ _ _ S1), ?HT; assumption). rewrite (s_view _ _ _ S1), VT, N. exists t1, []. cbn. auto 10.
  - cbn in Wk. destruct Wk as (e & E & Wk). destruct (lock_one_ok hash b t W ltac:(rewrite HT; assumption)) as (t1 & E1 & W1 & S1 & M1). rewrite E1. cbn [rbind].
    rewrite <- (view_cell hash) by (rewrite ?(s_hp _ _ _ S1), ?HT; assumption). rewrite (s_view _ _ _ S1), VT, E.
    destruct (SH _ _ _ E) as (_ & _ & P & _). rewrite (s_hp _ _ _ S1), HT, <- P. cbv zeta.
    destruct (IH (alt_index h (e_part e) b) b' s t1) as (t' & rs & F & W' & S' & L & ST & MP); try assumption.
    { now rewrite (s_hp _ _ _ S1). } { intros. now rewrite (s_view _ _ _ S1). } { now apply alt_range. }
    rewrite F. cbn [rbind]. exists t', (mkR b x (hash (e_key e)) :: rs). cbn. split; [reflexivity|]. split; [assumption|]. split; [eapply same_trans; eassumption|].
    split; [split; [exists e; auto|assumption]|]. split; [reflexivity|]. now rewrite MP.
Qed.

(** The same mappings, perhaps elsewhere. *)
Record shuffled (t t' : table) : Prop := {
  h_hp : hp t' = hp t; h_locks : nlocks t' = nlocks t; h_counter : counter t' = counter t;
  h_shape : shape (hp t) (view t'); h_uniq : uniq (view t');
  h_holds : forall x, holds (view t') x <-> holds (view t) x }.
Lemma same_shuffled t t' : shape (hp t) (view t) -> uniq (view t) -> same t t' -> shuffled t t'.
Proof. intros S U [H L C V0 _]. split; auto; [eapply shape_ext; eauto|eapply uniq_ext; eauto|intros; now apply holds_ext]. Qed.
Lemma shuffled_trans a b c : shuffled a b -> shuffled b c -> shuffled a c.
Proof. intros [A1 A2 A3 A4 A5 A6] [B1 B2 B3 B4 B5 B6]. split; try congruence. - now rewrite <- A1. - assumption. - intros. now rewrite B6. Qed.

Lemma set_ext (c c' : cells) i s x i' s' : c i' s' = c' i' s' -> set_cell c i s x i' s' = set_cell c' i s x i' s'.
Proof. intros E. unfold set_cell. now rewrite E. Qed.

(** Moving the entries, the last first (1480-1524). *)
Lemma move_back_ok i1 i2 h : 0 <= h -> 0 <= i1 < 2 ^ h -> 0 <= i2 < 2 ^ h -> forall rs to t, wf t -> hp t = h -> shape h (view t) -> uniq (view t) ->
  rs <> [] -> linked (view t) h rs (r_bucket to) -> start rs (r_bucket to) = i1 \/ start rs (r_bucket to) = i2 -> NoDup (map place rs) ->
  view t (r_bucket to) (r_slot to) = None -> 0 <= r_slot to < 4 ->
  exists t', move_back hash i1 i2 to (rev rs) t = Done t' true /\ wf t' /\ shuffled t t' /\
    (forall r rs', rs = r :: rs' -> view t' (r_bucket r) (r_slot r) = None) /\ migrated t' (lock_ind i1) = true /\ migrated t' (lock_ind i2) = true.
Proof.
  intros H R1 R2. induction rs as [|from rs IH] using rev_ind; intros to t W HT S U NE L ST ND FR RS; [contradiction|]. clear NE.
  rewrite rev_unit. cbn [move_back]. apply linked_app in L. destruct L as [L1 L2]. cbn [linked start] in L1, L2. destruct L2 as [(e & E & HE & A) _].
  destruct (S _ _ _ E) as (RF & RFS & P & _).
  assert (RT : 0 <= r_bucket to < 2 ^ h) by (rewrite <- A; now apply alt_range).
  assert (LOCK : exists t1, (match rev rs with [] => lock_three hash i1 i2 (r_bucket to) t | _ => lock_two hash (r_bucket from) (r_bucket to) t end) = Done t1 tt /\ wf t1 /\ same t t1 /\
     migrated t1 (lock_ind (r_bucket from)) = true /\ migrated t1 (lock_ind (r_bucket to)) = true /\
     (rs = [] -> migrated t1 (lock_ind i1) = true /\ migrated t1 (lock_ind i2) = true)).
  { destruct rs as [|r0 rs0].
    - cbn [rev]. destruct (lock_three_ok hash i1 i2 (r_bucket to) t W) as (t1 & E1 & W1 & S1 & M1 & M2 & M3); [rewrite HT; assumption..|]. exists t1. do 3 (split; [assumption|]). split; [|auto].
      cbn in ST. destruct ST as [->| ->]; assumption.
    - destruct (rev (r0 :: rs0)) eqn:RV; [apply (f_equal (@length _)) in RV; rewrite rev_length in RV; discriminate|].
      destruct (lock_two_ok hash (r_bucket from) (r_bucket to) t W) as (t1 & E1 & W1 & S1 & M1 & M2); [rewrite HT; assumption..|]. exists t1. do 5 (split; [assumption|]). discriminate. }
  destruct LOCK as (t1 & E1 & W1 & S1 & MF & MT & M0). rewrite E1. cbn [rbind]. clear E1.
  assert (HT1 : hp t1 = h) by (rewrite (s_hp _ _ _ S1); assumption).
  rewrite <- !(view_cell hash t1) by (rewrite ?HT1; assumption). rewrite !(s_view _ _ _ S1), FR, E, <- HE, Z.eqb_refl. cbv zeta.
  set (t2 := with_cell t1 _).
  assert (V2 : forall i s, view t2 i s = displace (view t) (r_bucket from) (r_slot from) (r_bucket to) (r_slot to) e i s).
  { intros i s. unfold t2, displace. set (ta := with_cell t1 (set_cell (cell t1) (r_bucket to) (r_slot to) (Some e))).
    change (with_cell t1 (set_cell (set_cell (cell t1) (r_bucket to) (r_slot to) (Some e)) (r_bucket from) (r_slot from) None)) with (with_cell ta (set_cell (cell ta) (r_bucket from) (r_slot from) None)).
    rewrite view_with_cell by (first [change (hp ta) with (hp t1); rewrite HT1; assumption|assumption]).
    apply set_ext. unfold ta. rewrite view_with_cell by (rewrite ?HT1; assumption). apply set_ext, S1. }
  assert (W2 : wf t2).
  { unfold t2. set (ta := with_cell t1 (set_cell (cell t1) (r_bucket to) (r_slot to) (Some e))).
    change (with_cell t1 (set_cell (set_cell (cell t1) (r_bucket to) (r_slot to) (Some e)) (r_bucket from) (r_slot from) None)) with (with_cell ta (set_cell (cell ta) (r_bucket from) (r_slot from) None)).
    apply wf_with_cell; [apply wf_with_cell; assumption|exact MF]. }
  destruct (displace_ok hash h (view t) (r_bucket from) (r_slot from) (r_bucket to) (r_slot to) e H S U E FR RS (eq_sym A)) as (D1 & D2 & D3 & D4).
  assert (SH2 : shuffled t t2).
  { split; try (unfold t2; cbn; apply S1).
    - rewrite HT. eapply shape_ext; [exact V2|exact D1]. - eapply uniq_ext; [exact V2|exact D2].
    - intros x. rewrite (holds_ext _ _ x V2). apply D3. }
  assert (FREE : view t2 (r_bucket from) (r_slot from) = None) by (rewrite V2; exact D4).
  rewrite map_app in ND. cbn [map] in ND. apply NoDup_remove in ND. rewrite app_nil_r in ND. destruct ND as [ND NIN].
  destruct rs as [|r0 rs0].
  - cbn [rev move_back]. exists t2. split; [reflexivity|]. split; [assumption|]. split; [assumption|]. split; [intros r rs' Q; cbn in Q; injection Q as <- <-; assumption|]. exact (M0 eq_refl).
  - destruct (IH from t2) as (t' & MB & W' & SH' & F' & MM); try assumption.
    + rewrite <- HT. apply SH2. + apply SH2. + discriminate.
    + eapply linked_frame; [|exact L1]. intros r IN. rewrite V2. unfold displace. rewrite !set_other; [reflexivity| |].
      * (* not the target *) destruct (Z.eq_dec (r_bucket r) (r_bucket to)) as [Q1|]; [|auto]. destruct (Z.eq_dec (r_slot r) (r_slot to)) as [Q2|]; [|auto]. exfalso.
        apply in_split in IN. destruct IN as (a & b & SP). rewrite SP in L1. apply linked_app in L1. destruct L1 as [_ L1]. cbn [linked] in L1. destruct L1 as [(e' & E' & _) _]. rewrite Q1, Q2 in E'. congruence.
      * destruct (Z.eq_dec (r_bucket r) (r_bucket from)) as [Q1|]; [|auto]. destruct (Z.eq_dec (r_slot r) (r_slot from)) as [Q2|]; [|auto]. exfalso.
        apply NIN. apply in_map_iff. exists r. split; [unfold place; congruence|assumption].
    + exists t'. split; [exact MB|]. split; [assumption|]. split; [eapply shuffled_trans; eassumption|]. split; [|exact MM].
      intros r rs' Q. cbn [app] in Q. injection Q as <- <-. apply (F' r0 rs0 eq_refl).
Qed.

Lemma run_cuckoo_ok f i1 i2 t : wf t -> shape (hp t) (view t) -> uniq (view t) -> 0 <= i1 < 2 ^ hp t -> 0 <= i2 < 2 ^ hp t ->
  (exists t', run_cuckoo hash (S f) i1 i2 t = Done t' None /\ wf t' /\ same t t' /\ forall n b, (n <= 4)%nat -> reach (view t) (hp t) i1 i2 n b -> full (view t) b) \/
  (exists t' b s, run_cuckoo hash (S f) i1 i2 t = Done t' (Some (b, s)) /\ wf t' /\ shuffled t t' /\ (b = i1 \/ b = i2) /\ 0 <= s < 4 /\ view t' b s = None /\
     migrated t' (lock_ind i1) = true /\ migrated t' (lock_ind i2) = true).
Proof.
  intros W S U R1 R2. assert (H : 0 <= hp t) by apply W. cbn [run_cuckoo]. unfold cuckoopath_search.
  destruct (slot_search_ok hash (view t) (hp t) i1 i2 H R1 R2 t W eq_refl (fun _ _ => eq_refl)) as (t1 & y & E1 & W1 & S1 & NY).
  rewrite E1. cbn [rbind]. destruct NY as [[D F]|(r & ss & s & b & R & LE & D & OK & CD & WK & FR & BEL)].
  - left. rewrite D. cbn [Z.eqb rbind]. exists t1. auto.
  - right. rewrite D. replace (Z.of_nat (length ss) =? -1) with false by lia. cbv iota. rewrite CD.
    replace (Z.to_nat (Z.of_nat (length ss) + 1)) with (length (ss ++ [s])) by (rewrite app_length; cbn; lia).
    rewrite decode_code by exact OK. rewrite app_nil_r.
    assert (FI : (if r =? 0 then Some i1 else if r =? 1 then Some i2 else None) = Some (root i1 i2 r)) by (unfold root; destruct R as [-> | ->]; reflexivity).
    rewrite FI. clear FI. assert (RR : 0 <= root i1 i2 r < 2 ^ hp t) by (unfold root; destruct (r =? 0); assumption).
    destruct (follow_ok (view t) (hp t) H S ss (root i1 i2 r) b s t1) as (t2 & rs & E2 & W2 & S2 & L & ST & MP); try assumption.
    { apply S1. } { apply S1. }
    rewrite E2. cbn [rbind]. assert (S12 : same t t2) by (eapply same_trans; eassumption).
    assert (HP2 : hp t2 = hp t) by apply S12. assert (V2 : forall i s, view t2 i s = view t i s) by apply S12.
    apply Forall_app in OK. destruct OK as [OK1 OK2]. inversion OK2 as [|? ? SR _]; subst.
    assert (RI : root i1 i2 r = i1 \/ root i1 i2 r = i2) by (unfold root; destruct (r =? 0); auto).
    destruct rs as [|r0 rs].
    + cbn in ST, E2. subst b. cbn [app cuckoopath_move].
      destruct (lock_two_ok hash i1 i2 t2 W2) as (t3 & E3 & W3 & S3 & M1 & M2); [rewrite HP2; assumption..|]. rewrite E3. cbn [rbind r_bucket r_slot].
      rewrite <- (view_cell hash t3) by (rewrite ?(s_hp _ _ _ S3), ?HP2; first [assumption|destruct RI as [-> | ->]; assumption]).
      rewrite (s_view _ _ _ S3), V2, FR. cbn [rbind]. exists t3, (root i1 i2 r), s. split; [reflexivity|]. split; [assumption|].
      split; [apply same_shuffled; try assumption; eapply same_trans; eassumption|]. repeat split; try assumption; try lia. now rewrite (s_view _ _ _ S3), V2.
    + assert (PATH : cuckoopath_move hash i1 i2 ((r0 :: rs) ++ [mkR b s 0]) t2 = move_back hash i1 i2 (mkR b s 0) (rev (r0 :: rs)) t2).
      { unfold cuckoopath_move. rewrite rev_unit. cbn [app]. destruct rs; reflexivity. }
      rewrite PATH.
      destruct (move_back_ok i1 i2 (hp t) H R1 R2 (r0 :: rs) (mkR b s 0) t2) as (t3 & E3 & W3 & SH & FREE & M1 & M2); try assumption.
      * eapply shape_ext; [|exact S]. apply S12. * eapply uniq_ext; [|exact U]. apply S12. * discriminate.
      * cbn [r_bucket]. eapply linked_ext; [exact V2|exact L].
      * cbn [r_bucket]. rewrite ST. exact RI.
      * apply (nodup_path (view t) (hp t) i1 i2 r (r0 :: rs) b s); try assumption.
        intros n b' LN. apply BEL. rewrite <- (map_length r_slot (r0 :: rs)) in LN. assumption.
      * cbn. now rewrite V2.
      * rewrite E3. cbn [rbind app]. exists t3, (r_bucket r0), (r_slot r0). split; [reflexivity|]. split; [assumption|].
        split; [eapply shuffled_trans; [apply same_shuffled; eassumption|exact SH]|]. cbn in ST. split; [rewrite ST; exact RI|].
        cbn [map] in OK1. inversion OK1; subst. split; [assumption|]. split; [apply (FREE r0 rs eq_refl)|auto].
Qed.

(** A place for a key (1218-1271), under the locks of its two buckets. *)
Definition absent (c : cells) (k : K) : Prop := forall i s e, c i s = Some e -> e_key e <> k.
Lemma absent_holds c c' k : (forall x, holds c' x <-> holds c x) -> absent c k -> absent c' k.
Proof. intros E A i s e X. destruct (proj1 (E e)) as (i' & s' & Y); [exists i, s; exact X|]. exact (A _ _ _ Y). Qed.
Definition placed (t t' : table) (k : K) (st : status) : Prop :=
  match st with
  | SOk i s => (i = I1 (hp t) k \/ i = I2 (hp t) k) /\ 0 <= s < 4 /\ cell t' i s = None /\ view t' i s = None /\ migrated t' (lock_ind i) = true /\ absent (view t') k
  | SDuplicated i s => exists e, 0 <= i < 2 ^ hp t /\ cell t' i s = Some e /\ view t' i s = Some e /\ e_key e = k /\ migrated t' (lock_ind i) = true
  | SFull => same t t' /\ absent (view t') k /\ forall n b, (n <= 4)%nat -> reach (view t) (hp t) (I1 (hp t) k) (I2 (hp t) k) n b -> full (view t) b
  end.
Lemma cuckoo_insert_ok f k t : wf t -> shape (hp t) (view t) -> uniq (view t) ->
  migrated t (lock_ind (I1 (hp t) k)) = true -> migrated t (lock_ind (I2 (hp t) k)) = true ->
  exists t' st, cuckoo_insert hash keq simple (S f) k (pk k) (I1 (hp t) k) (I2 (hp t) k) t = Done t' st /\ wf t' /\ shuffled t t' /\ placed t t' k st.
Proof.
  intros W S U M1 M2. assert (H : 0 <= hp t) by apply W. unfold cuckoo_insert.
  set (i1 := I1 (hp t) k) in *. set (i2 := I2 (hp t) k) in *.
  assert (R1 : 0 <= i1 < 2 ^ hp t) by now apply I1_range. assert (R2 : 0 <= i2 < 2 ^ hp t) by now apply I2_range.
  assert (VC1 : forall s, view t i1 s = cell t i1 s) by (intros; now apply view_cell).
  assert (VC2 : forall s, view t i2 s = cell t i2 s) by (intros; now apply view_cell).
  assert (P1 : forall x e, cell t i1 x = Some e -> e_part e = pk (e_key e)) by (intros x e E; rewrite <- VC1 in E; exact (shape_part hash _ _ _ S _ _ E)).
  assert (P2 : forall x e, cell t i2 x = Some e -> e_part e = pk (e_key e)) by (intros x e E; rewrite <- VC2 in E; exact (shape_part hash _ _ _ S _ _ E)).
  assert (SELF : shuffled t t) by (apply same_shuffled; auto using same_refl).
  destruct (try_insert_spec hash keq simple keq_spec (cell t i1) k P1 slots 0 (-1)) as [(r & e & E & L & B & Q)|(s1 & E & N1 & F1)]; rewrite E; cbn [negb].
  { exists t, (SDuplicated i1 r). split; [reflexivity|]. split; [assumption|]. split; [assumption|]. cbn. exists e. rewrite VC1. auto. }
  destruct (try_insert_spec hash keq simple keq_spec (cell t i2) k P2 slots 0 (-1)) as [(r & e & E' & L & B & Q)|(s2 & E' & N2 & F2)]; rewrite E'; cbn [negb].
  { exists t, (SDuplicated i2 r). split; [reflexivity|]. split; [assumption|]. split; [assumption|]. cbn. exists e. rewrite VC2. auto. }
  assert (AB : absent (view t) k).
  { intros i s e X Q. destruct (S _ _ _ X) as (_ & RS & _ & [->| ->]); rewrite Q in X.
    - fold i1 in X. rewrite VC1 in X. exact (N1 s e ltac:(unfold slots; lia) X Q). - fold i2 in X. rewrite VC2 in X. exact (N2 s e ltac:(unfold slots; lia) X Q). }
  unfold slots in *. destruct (Z.eqb_spec s1 (-1)); cbn [negb].
  2: { destruct F1 as [[? _]|[F1 FN]]; [lia|]. exists t, (SOk i1 s1). split; [reflexivity|]. split; [assumption|]. split; [assumption|]. cbn. rewrite VC1. fold i1. repeat split; auto; lia. }
  destruct (Z.eqb_spec s2 (-1)); cbn [negb].
  2: { destruct F2 as [[? _]|[F2 FN]]; [lia|]. exists t, (SOk i2 s2). split; [reflexivity|]. split; [assumption|]. split; [assumption|]. cbn. rewrite VC2. fold i2. repeat split; auto; lia. }
  destruct (run_cuckoo_ok f i1 i2 t W S U R1 R2) as [(t' & E1 & W' & S' & FULL)|(t' & b & s & E1 & W' & SH & BI & SR & FR & MM1 & MM2)]; rewrite E1; cbn [rbind].
  - exists t', SFull. split; [reflexivity|]. split; [assumption|]. assert (SH := same_shuffled t t' S U S'). split; [assumption|]. cbn. split; [exact S'|]. split; [|exact FULL].
    eapply absent_holds; [apply SH|exact AB].
  - assert (MB : migrated t' (lock_ind b) = true) by (destruct BI; subst b; assumption).
    assert (FC : cell t' b s = None).
    { rewrite <- (view_cell hash t'); [assumption|rewrite (h_hp _ _ SH); destruct BI; subst b; assumption|assumption]. }
    rewrite FC. assert (AB' : absent (view t') k) by (eapply absent_holds; [apply SH|exact AB]).
    pose proof (cuckoo_find_spec hash keq simple keq_spec t' k) as CF. rewrite (h_hp _ _ SH) in CF. fold i1 i2 in CF.
    specialize (CF H (h_shape _ _ SH) MM1 MM2).
    destruct (cuckoo_find keq simple t' k (pk k) i1 i2) as [[i x]|].
    + destruct CF as (ee & _ & _ & _ & VE & Q). exfalso. exact (AB' _ _ _ VE Q).
    + exists t', (SOk b s). split; [reflexivity|]. split; [assumption|]. split; [assumption|]. cbn. fold i1 i2. repeat split; auto; lia.
Qed.
End Proofs.
