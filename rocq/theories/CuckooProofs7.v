(** The table as a map: insertion with expansion. *)

From Coq Require Import ZArith List Lia Bool.
From Verif Require Import Base Bits CuckooModel CuckooProofs1 CuckooProofs2 CuckooProofs3 CuckooProofs4 CuckooProofs5 CuckooProofs6.
Import ListNotations.
Open Scope Z_scope.

Section Proofs.
Context {K V : Type} (hash : K -> Z) (keq : K -> K -> bool) (simple nothrow : bool).
Context (keq_spec : forall a b, keq a b = true <-> a = b).
Notation entry := (@entry K V). Notation table := (@table K V). Notation cells := (@cells K V).
Notation I1 := (I1 hash). Notation I2 := (I2 hash). Notation view := (view hash).
Notation wf0 := (wf0 hash). Notation wf := (wf hash). Notation same := (same hash). Notation shape := (shape hash).
Notation shuffled := (shuffled hash).
Notation pk k := (partial_key (hash k)).
Notation insert_loop := (insert_loop hash keq simple nothrow).

(** [t] holds exactly the mappings [m]. *)
Record rep (t : table) (m : list (K * V)) : Prop := {
  r_wf : wf t; r_shape : shape (hp t) (view t); r_uniq : uniq (view t);
  r_nodup : NoDup (map fst m);
  r_in : forall k v, In (k, v) m <-> has (view t) k v;
  r_count : count t = zlen m }.
Lemma has_of_holds (c c' : cells) : (forall x, holds c' x <-> holds c x) -> forall k v, has c' k v <-> has c k v.
Proof. intros H k v. unfold has. split; intros (e & A & B); exists e; (split; [now apply H|assumption]). Qed.
Lemma rep_shuffled t t' m : rep t m -> wf t' -> shuffled t t' -> rep t' m.
Proof.
  intros [W S U N I C] W' [H L C' S' U' HH]. split; auto.
  - now rewrite H. - intros k v. rewrite I. symmetry. now apply has_of_holds. - unfold count in *. now rewrite C', L.
Qed.
Lemma rep_same t t' m : rep t m -> wf t' -> same t t' -> rep t' m.
Proof. intros R W S. apply (rep_shuffled t); auto. apply same_shuffled; auto; apply R. Qed.
Lemma rep_absent t m k : rep t m -> absent (view t) k <-> ~ In k (map fst m).
Proof.
  intros R. split.
  - intros A I. apply in_map_iff in I. destruct I as ((k', v) & E & I). cbn in E. subst k'. apply (r_in _ _ R) in I. destruct I as (e & (i & s & X) & Q & _). exact (A i s e X Q).
  - intros N i s e X Q. apply N. apply in_map_iff. exists (k, e_val e). split; [reflexivity|]. apply (r_in _ _ R). exists e. split; [exists i, s; exact X|auto].
Qed.
Lemma rep_length t m m' : rep t m -> NoDup (map fst m') -> (forall k v, In (k, v) m' -> In (k, v) m) -> zlen m' <= zlen m.
Proof.
  intros R N I. unfold zlen. apply inj_le. apply NoDup_incl_length; [now apply NoDup_map_inv in N|]. intros [k v]. apply I.
Qed.

(** A new key in the slot found for it (1276-1282). *)
Definition final (t : table) (k : K) (st : status) : Prop :=
  match st with
  | SOk i s => (i = I1 (hp t) k \/ i = I2 (hp t) k) /\ 0 <= s < 4 /\ cell t i s = None /\ view t i s = None /\ migrated t (lock_ind i) = true /\ absent (view t) k
  | SDuplicated i s => exists e, 0 <= i < 2 ^ hp t /\ cell t i s = Some e /\ view t i s = Some e /\ e_key e = k /\ migrated t (lock_ind i) = true
  | SFull => False
  end.
Lemma count_fup (t : table) i x : wf0 t -> 0 <= i < 2 ^ hp t -> count (with_counter t (fup (counter t) (lock_ind i) x)) = count t + (x - counter t (lock_ind i)).
Proof. intros W R. unfold count, with_counter. cbn [counter nlocks]. apply sum_fup. pose proof (in_locks hash t i W R). lia. Qed.
Lemma I_range h k i : 0 <= h -> i = I1 h k \/ i = I2 h k -> 0 <= i < 2 ^ h.
Proof. intros H [->| ->]; [now apply I1_range|now apply I2_range]. Qed.
Lemma add_to_bucket_ok t m i s k v : rep t m -> final t k (SOk i s) ->
  exists t', add_to_bucket i s (pk k) k v t = Done t' tt /\ rep t' ((k, v) :: m) /\ hp t' = hp t.
Proof.
  intros R (Q & SR & F & FV & M & A). assert (H : 0 <= hp t) by apply R. assert (RI := I_range _ _ _ H Q).
  unfold add_to_bucket, setKV. rewrite F. cbv zeta. eexists. split; [reflexivity|]. split; [|reflexivity].
  set (ta := with_cell t (set_cell (cell t) i s (Some (mkE (pk k) k v)))).
  assert (WA : wf ta) by (apply wf_with_cell; [apply R|assumption]).
  assert (VA : forall i' s', view ta i' s' = set_cell (view t) i s (Some (mkE (pk k) k v)) i' s') by (now apply view_with_cell).
  destruct (add_ok hash (hp t) (view t) i s k v H (r_shape _ _ R) (r_uniq _ _ R) FV SR Q A) as (A1 & A2 & A3).
  assert (V2 : forall i' s', view (with_counter ta (fup (counter ta) (lock_ind i) (counter ta (lock_ind i) + 1))) i' s' = set_cell (view t) i s (Some (mkE (pk k) k v)) i' s') by (intros; rewrite view_with_counter; apply VA).
  split.
  - now apply wf_with_counter.
  - eapply shape_ext; [exact V2|exact A1].
  - eapply uniq_ext; [exact V2|exact A2].
  - cbn. constructor; [now apply (rep_absent t)|apply R].
  - intros k' v'. rewrite (has_ext _ _ k' v' V2). cbn [In]. rewrite (r_in _ _ R). split.
    + intros [E|(e & X & Y)].
      * injection E as <- <-. exists (mkE (pk k) k v). split; [apply A3; auto|auto].
      * exists e. split; [apply A3; auto|assumption].
    + intros (e & X & Y1 & Y2). apply A3 in X. destruct X as [->|X]; [left; cbn in *; congruence|right; exists e; auto].
  - rewrite count_fup by (first [apply WA|exact RI]). change (count ta) with (count t). rewrite (r_count _ _ R). unfold zlen. cbn [length]. lia.
Qed.

(** The entries of buckets in order. *)
Definition olist {A} (o : option A) : list A := match o with Some a => [a] | None => [] end.
Definition row (src : cells) (b : Z) : list entry := olist (src b 0) ++ olist (src b 1) ++ olist (src b 2) ++ olist (src b 3).
Fixpoint rows (src : cells) (b : Z) (n : nat) : list entry := match n with O => [] | S n' => row src b ++ rows src (b + 1) n' end.
Lemma in_olist {A} (o : option A) a : In a (olist o) <-> o = Some a.
Proof. destruct o; cbn; [|split; [tauto|discriminate]]. split; [intros [->|[]]; reflexivity|intros E; left; congruence]. Qed.
Lemma in_row src b e : In e (row src b) <-> exists s, 0 <= s < 4 /\ src b s = Some e.
Proof.
  unfold row. rewrite !in_app_iff, !in_olist. split.
  - intros [E|[E|[E|E]]]; [exists 0|exists 1|exists 2|exists 3]; split; auto; lia.
  - intros (s & S & E). assert (D : s = 0 \/ s = 1 \/ s = 2 \/ s = 3) by lia. destruct D as [->|[->|[->| ->]]]; auto.
Qed.
Lemma in_rows src e : forall n b, In e (rows src b n) <-> exists i s, b <= i < b + Z.of_nat n /\ 0 <= s < 4 /\ src i s = Some e.
Proof.
  induction n as [|n IH]; intros b; cbn [rows].
  - split; [contradiction|]. intros (i & s & R & _). lia.
  - rewrite in_app_iff, in_row, IH. split.
    + intros [(s & S & E)|(i & s & R & S & E)]; [exists b, s|exists i, s]; repeat split; auto; lia.
    + intros (i & s & R & S & E). destruct (Z.eq_dec i b) as [->|]; [left; exists s; auto|right; exists i, s; repeat split; auto; lia].
Qed.
Lemma nodup_olist {A} (o : option A) : NoDup (olist o).
Proof. destruct o; cbn; repeat constructor. intros []. Qed.
Lemma nodup_map_app {A B} (f : A -> B) (l l' : list A) : NoDup (map f l) -> NoDup (map f l') -> (forall a b, In a l -> In b l' -> f a <> f b) -> NoDup (map f (l ++ l')).
Proof.
  intros N N' D. rewrite map_app. induction l as [|a l IH]; cbn; [exact N'|]. inversion N; subst. constructor.
  - rewrite in_app_iff. intros [I|I]; [contradiction|]. apply in_map_iff in I. destruct I as (b & E & I). exact (D a b (or_introl eq_refl) I (eq_sym E)).
  - apply IH; [assumption|]. intros; apply D; [right; assumption|assumption].
Qed.
Lemma nodup_row src b : (forall s s' e e', src b s = Some e -> src b s' = Some e' -> e_key e = e_key e' -> s = s') -> NoDup (map e_key (row src b)).
Proof.
  intros U. unfold row. assert (O : forall o : option entry, NoDup (map e_key (olist o))) by (intros []; cbn; repeat constructor; intros []).
  repeat apply nodup_map_app; auto; intros x y X Y Q; rewrite ?in_app_iff, ?in_olist in *;
    repeat match goal with H : _ \/ _ |- _ => destruct H end; match goal with A : src b ?s = Some x, B : src b ?s' = Some y |- _ => pose proof (U _ _ _ _ A B Q); lia end.
Qed.
Lemma nodup_rows src : forall n b, (forall i s e i' s' e', b <= i < b + Z.of_nat n -> b <= i' < b + Z.of_nat n -> src i s = Some e -> src i' s' = Some e' -> e_key e = e_key e' -> i = i' /\ s = s') -> NoDup (map e_key (rows src b n)).
Proof.
  induction n as [|n IH]; intros b U; cbn [rows]; [constructor|]. apply nodup_map_app.
  - apply nodup_row. intros s s' e e' X Y Q. apply (U b s e b s' e'); auto; lia.
  - apply IH. intros i s e i' s' e' R R' X Y Q. apply (U i s e i' s' e'); auto; lia.
  - intros x y X Y Q. apply in_row in X. apply in_rows in Y. destruct X as (s & _ & X), Y as (i & s' & R & _ & Y).
    destruct (U b s x i s' y ltac:(lia) ltac:(lia) X Y Q). lia.
Qed.

Definition kv (e : entry) : K * V := (e_key e, e_val e).
(** The entries of a settled table are its mappings. *)
Lemma rows_rep t m : rep t m -> settled t -> let l := map kv (rows (cell t) 0 (Z.to_nat (2 ^ hp t))) in
  NoDup (map fst l) /\ (forall k v, In (k, v) l <-> In (k, v) m) /\ zlen l = zlen m.
Proof.
  intros R A l. assert (H : 0 <= hp t) by apply R. assert (0 < 2 ^ hp t) by (apply Z.pow_pos_nonneg; lia).
  assert (VS : forall i s, 0 <= i < 2 ^ hp t -> cell t i s = view t i s) by (intros; symmetry; apply view_settled; [apply R|assumption..]).
  assert (N : NoDup (map fst l)).
  { unfold l. rewrite map_map. change (fun x => fst (kv x)) with (fun x : entry => e_key x). apply nodup_rows.
    intros i s e i' s' e' I I' X Y. rewrite VS in X, Y by lia. apply (r_uniq _ _ R _ _ _ _ _ _ X Y). }
  assert (IN : forall k v, In (k, v) l <-> In (k, v) m).
  { intros k v. rewrite (r_in _ _ R). unfold l. rewrite in_map_iff. split.
    - intros (e & E & I). apply in_rows in I. destruct I as (i & s & I & S & X). rewrite VS in X by lia. injection E as <- <-. exists e. split; [exists i, s; exact X|auto].
    - intros (e & (i & s & X) & E1 & E2). exists e. split; [unfold kv; congruence|]. apply in_rows. destruct (r_shape _ _ R _ _ _ X) as (I & S & _).
      exists i, s. rewrite VS by assumption. repeat split; try assumption; lia. }
  split; [exact N|]. split; [exact IN|]. unfold zlen. f_equal. apply Nat.le_antisymm; apply NoDup_incl_length.
  - now apply NoDup_map_inv in N. - intros [k v]. apply IN. - apply NoDup_map_inv with (f := fst). apply R. - intros [k v]. apply IN.
Qed.

(** *** The empty table *)
Lemma reserve_from_pow h : forall f b, 0 <= b <= h -> h <= b + Z.of_nat f -> reserve_from f b (2 ^ h) = h.
Proof.
  induction f as [|f IH]; intros b B F; cbn [reserve_from]; [lia|]. destruct (Z.ltb_spec (2 ^ b) (2 ^ h)) as [L|L].
  - apply Z.pow_lt_mono_r_iff in L; [|lia..]. apply IH; lia.
  - destruct (Z.eq_dec b h); [assumption|]. exfalso. assert (2 ^ b < 2 ^ h) by (apply Z.pow_lt_mono_r; lia). lia.
Qed.
Lemma reserve_from_nonneg n : forall f b, 0 <= b -> 0 <= reserve_from f b n.
Proof. induction f as [|f IH]; intros b B; cbn [reserve_from]; [lia|]. destruct (2 ^ b <? n); [apply IH; lia|lia]. Qed.
Lemma reserve_calc_pow h : 0 <= h <= 128 -> reserve_calc (2 ^ h * 4) = h.
Proof.
  intros H. unfold reserve_calc. replace ((2 ^ h * 4 + 4 - 1) / 4) with (2 ^ h); [apply reserve_from_pow; lia|].
  replace (2 ^ h * 4 + 4 - 1) with (3 + 2 ^ h * 4) by lia. rewrite Z.div_add by lia. reflexivity.
Qed.
Lemma rep_fresh n : rep (fresh n) [].
Proof.
  assert (H : 0 <= reserve_calc n) by (apply reserve_from_nonneg; lia). assert (0 < 2 ^ reserve_calc n) by (apply Z.pow_pos_nonneg; lia).
  assert (A : settled (@fresh K V n)) by (intros l L; reflexivity).
  assert (VN : forall i s, view (@fresh K V n) i s = None) by (intros i s; unfold CuckooProofs2.view; cbn; destruct ((0 <=? i) && _); reflexivity).
  assert (W0 : wf0 (@fresh K V n)) by (apply settled_wf0; [exact H|unfold fresh, hashsize, kMaxNumLocks; cbn; lia|exact A]).
  split.
  - split; [exact W0|]. symmetry. apply settled_unmigrated; [unfold fresh, hashsize, kMaxNumLocks; cbn; lia|exact A].
  - intros i s e X. rewrite VN in X. discriminate.
  - intros i s e i' s' e' X. rewrite VN in X. discriminate.
  - constructor.
  - intros k v. split; [intros []|]. intros (e & (i & s & X) & _). rewrite VN in X. discriminate.
  - unfold count. change (counter (fresh n)) with (fun _ : Z => 0). rewrite sum_zero. reflexivity.
Qed.

(** *** Enough rounds *)
Definition enough (f : nat) (h n : Z) : Prop := (1 <= f)%nat /\ 5 * n < 2 ^ (h + Z.of_nat f - 1).
Lemma enough_mono f h n h' n' : enough f h n -> 0 <= h <= h' -> n' <= n -> enough f h' n'.
Proof. intros [F E] H N. split; [assumption|]. assert (2 ^ (h + Z.of_nat f - 1) <= 2 ^ (h' + Z.of_nat f - 1)) by (apply Z.pow_le_mono_r; lia). lia. Qed.
Lemma load_low t m : rep t m -> zlen m < 2 ^ 63 -> load_too_low t = false -> 2 ^ hp t <= 5 * zlen m.
Proof.
  intros R B. unfold load_too_low, size. fold (count t). rewrite (r_count _ _ R). assert (0 <= zlen m) by (unfold zlen; lia).
  assert (2 ^ 63 < 2 ^ 64) by reflexivity.
  unfold uwrap. rewrite Z.mod_small by lia. unfold hashsize. change (2 ^ 56) with 72057594037927936. intros L. lia.
Qed.
Lemma enough_next f t m : rep t m -> zlen m < 2 ^ 63 -> load_too_low t = false -> enough (S f) (hp t) (zlen m) -> enough f (hp t + 1) (zlen m) /\ hp t <= 66.
Proof.
  intros R B L [_ E]. pose proof (load_low t m R B L) as LL. assert (H : 0 <= hp t) by apply R. replace (hp t + Z.of_nat (S f) - 1) with (hp t + Z.of_nat f) in E by lia.
  split.
  - split; [|replace (hp t + 1 + Z.of_nat f - 1) with (hp t + Z.of_nat f) by lia; assumption].
    destruct f; [|lia]. replace (hp t + Z.of_nat 0) with (hp t) in E by lia. lia.
  - destruct (Z.leb_spec (hp t) 66); [assumption|]. assert (2 ^ 67 <= 2 ^ hp t) by (apply Z.pow_le_mono_r; lia). change (2 ^ 67) with 147573952589676412928 in *. change (2 ^ 63) with 9223372036854775808 in *. lia.
Qed.

(** *** Insertion *)
Section Reinsert.
Context (ins : entry -> table -> res (K := K) (V := V) unit) (h0 N : Z).
Hypothesis ins_ok : forall e t m, rep t m -> h0 <= hp t -> zlen m < N -> ~ In (e_key e) (map fst m) ->
  (exists t', ins e t = Done t' tt /\ rep t' (kv e :: m) /\ h0 <= hp t') \/ (exists t', ins e t = TooLow t').
Lemma put_in_ok o t m : rep t m -> h0 <= hp t -> zlen m + zlen (olist o) <= N -> (forall e, In e (olist o) -> ~ In (e_key e) (map fst m)) ->
  (exists t', put_in ins o t = Done t' tt /\ rep t' (rev (map kv (olist o)) ++ m) /\ h0 <= hp t') \/ (exists t', put_in ins o t = TooLow t').
Proof.
  intros R H L D. destruct o as [e|]; cbn [put_in olist map rev app].
  - apply ins_ok; auto; [unfold zlen in *; cbn in L; lia|]. apply D. now left.
  - left. exists t. auto.
Qed.
(** A list of options put in one after the other. *)
Fixpoint put_list (os : list (option entry)) (t : table) : res unit :=
  match os with [] => Done t tt | o :: os' => rbind (put_in ins o t) (fun t' _ => put_list os' t') end.
Lemma put_list_ok os : forall t m, rep t m -> h0 <= hp t -> zlen m + zlen (concat (map olist os)) <= N -> NoDup (map e_key (concat (map olist os))) ->
  (forall e, In e (concat (map olist os)) -> ~ In (e_key e) (map fst m)) ->
  (exists t', put_list os t = Done t' tt /\ rep t' (rev (map kv (concat (map olist os))) ++ m) /\ h0 <= hp t') \/ (exists t', put_list os t = TooLow t').
Proof.
  induction os as [|o os IH]; intros t m R H L ND D; cbn [map concat put_list] in *.
  - left. exists t. auto.
  - rewrite zlen_app in L. rewrite map_app in ND. destruct (put_in_ok o t m R H) as [(t1 & E & R1 & H1)|(t1 & E)].
    + unfold zlen in *. lia. + intros e I. apply D. apply in_or_app. now left.
    + rewrite E. cbn [rbind]. destruct (IH t1 _ R1 H1) as [(t2 & E2 & R2 & H2)|(t2 & E2)].
      * rewrite zlen_app. unfold zlen in *. rewrite rev_length, map_length. lia.
      * clear - ND. induction (map e_key (olist o)); [assumption|]. apply IHl. now inversion ND.
      * intros e I J. rewrite map_app, in_app_iff in J. destruct J as [J|J]; [|exact (D e (in_or_app _ _ _ (or_intror I)) J)].
        rewrite map_rev, <- in_rev, map_map in J. change (fun x : entry => fst (kv x)) with (fun x : entry => e_key x) in J.
        apply (in_map e_key) in I. clear - ND I J. revert J. induction (map (fun x : entry => e_key x) (olist o)) as [|a l IHl]; [intros []|]. cbn in ND. inversion ND; subst.
        intros [->|J]; [|exact (IHl H2 J)]. apply H1. apply in_or_app. now right.
      * left. exists t2. split; [exact E2|]. split; [|exact H2]. rewrite map_app, rev_app_distr, <- app_assoc. exact R2.
      * right. exists t2. exact E2.
    + right. exists t1. now rewrite E.
Qed.
Fixpoint all_slots (src : cells) (b : Z) (n : nat) : list (option entry) :=
  match n with O => [] | S n' => [src b 0; src b 1; src b 2; src b 3] ++ all_slots src (b + 1) n' end.
Lemma reinsert_list src : forall n b t, reinsert ins src b n t = put_list (all_slots src b n) t.
Proof.
  induction n as [|n IH]; intros b t; cbn [reinsert all_slots app put_list]; [reflexivity|].
  destruct (put_in ins (src b 0) t) as [t1 []| | |]; cbn [rbind]; try reflexivity. destruct (put_in ins (src b 1) t1) as [t2 []| | |]; cbn [rbind]; try reflexivity.
  destruct (put_in ins (src b 2) t2) as [t3 []| | |]; cbn [rbind]; try reflexivity. destruct (put_in ins (src b 3) t3) as [t4 []| | |]; cbn [rbind]; try reflexivity. apply IH.
Qed.
Lemma slots_rows src : forall n b, concat (map olist (all_slots src b n)) = rows src b n.
Proof. induction n as [|n IH]; intros b; cbn [all_slots app map concat rows]; [reflexivity|]. rewrite IH. unfold row. now rewrite <- !app_assoc. Qed.
End Reinsert.

Lemma expand_ok ins t m : rep t m -> hp t <= 66 -> load_too_low t = false ->
  (forall e n m', rep n m' -> hp t + 1 <= hp n -> zlen m' < zlen m -> ~ In (e_key e) (map fst m') ->
     (exists t', ins e n = Done t' tt /\ rep t' (kv e :: m') /\ hp t + 1 <= hp t') \/ (exists t', ins e n = TooLow t')) ->
  (exists t', expand_simple hash ins (hp t + 1) t = Done t' tt /\ rep t' m /\ hp t + 1 <= hp t') \/ (exists t', expand_simple hash ins (hp t + 1) t = TooLow t' /\ rep t' m /\ hp t' = hp t).
Proof.
  intros R HB L INS. unfold expand_simple. rewrite L. assert (H : 0 <= hp t) by apply R. assert (P2 : 0 < 2 ^ hp t) by (apply Z.pow_pos_nonneg; lia).
  destruct (rehash_all_ok hash t (wf_0 _ _ (r_wf _ _ R))) as (t1 & E1 & W1 & S1 & A1 & O1). rewrite E1. cbn [rbind].
  assert (R1 := rep_same _ _ _ R W1 S1). assert (HP1 : hp t1 = hp t) by apply S1.
  destruct (rows_rep t1 m R1 A1) as (ND & IN & LN). rewrite HP1 in *. unfold hashsize. rewrite reinsert_list.
  assert (F := rep_fresh (2 ^ (hp t + 1) * 4)).
  destruct (put_list_ok ins (hp t + 1) (zlen m) INS (all_slots (cell t1) 0 (Z.to_nat (2 ^ hp t))) (fresh (2 ^ (hp t + 1) * 4)) [] F) as [(n1 & E & RN & HN)|(n1 & E)].
  - cbn [fresh hp]. rewrite reserve_calc_pow by lia. lia.
  - rewrite slots_rows. unfold zlen in *. rewrite map_length in LN. cbn. lia.
  - rewrite slots_rows. rewrite map_map in ND. exact ND.
  - intros e _ [].
  - rewrite E. cbn [rbind]. rewrite slots_rows, app_nil_r in RN.
    destruct (rehash_all_ok hash n1 (wf_0 _ _ (r_wf _ _ RN))) as (n2 & E2 & W2 & S2 & A2 & O2). rewrite E2. cbn [rbind].
    assert (R2 := rep_same _ _ _ RN W2 S2). assert (HP2 : hp n2 = hp n1) by apply S2.
    left. eexists. split; [reflexivity|].
    destruct (resize_ok hash (hashsize (hp n2)) t1 W1 A1) as (Q1 & Q2 & Q3 & Q4 & Q5 & Q6 & Q7 & Q8). unfold hashsize in *. set (t2 := maybe_resize_locks (2 ^ hp n2) t1) in *.
    split; [|cbn; lia]. set (f := mkT _ _ _ _ _ _ _ _).
    assert (0 < nlocks t2). { destruct W1 as [[WH WL _] _]. rewrite HP1 in WL. lia. }
    assert (AF : settled f) by exact Q3.
    assert (WF0 : wf0 f) by (apply settled_wf0; cbn; [apply R2|lia|exact AF]).
    assert (VF : forall i s, view f i s = view n2 i s).
    { intros i s. destruct (Z.ltb_spec i 0); [|destruct (Z.ltb_spec i (2 ^ hp n2))].
      1,3: unfold CuckooProofs2.view; cbn [hp f]; replace ((0 <=? i) && (i <? 2 ^ hp n2)) with false by lia; reflexivity.
      rewrite !view_settled; auto. apply W2. }
    assert (WF : wf f). { split; [exact WF0|]. cbn. rewrite Q7. destruct W1 as [_ ->]. rewrite !settled_unmigrated; auto; [cbn; lia|]. destruct R1 as [[[]]]; lia. }
    split; auto.
    + eapply shape_ext; [exact VF|]. cbn. apply R2. + eapply uniq_ext; [exact VF|]. apply R2. + apply R.
    + intros k v. rewrite (has_ext _ _ k v VF), <- (r_in _ _ R2), <- in_rev. symmetry. apply IN.
    + change (count f) with (count t2). rewrite Q4. apply R1.
  - right. rewrite E. cbn [rbind]. exists t1. auto.
Qed.

Definition stuck (t : table) (k : K) : Prop :=
  load_too_low t = true /\ forall n b, (n <= 4)%nat -> reach (view t) (hp t) (I1 (hp t) k) (I2 (hp t) k) n b -> full (view t) b.
(** Both buckets of the key were full in a table of these mappings. *)
Definition packed (h : Z) (m : list (K * V)) (k : K) : Prop :=
  exists t, rep t m /\ h <= hp t /\ full (view t) (I1 (hp t) k) /\ full (view t) (I2 (hp t) k).
Lemma packed_mono h h' m k : h' <= h -> packed h m k -> packed h' m k.
Proof. intros L (t & A & B & C). exists t. split; [assumption|]. split; [lia|assumption]. Qed.
Lemma insert_loop_ok : forall f k t m, rep t m -> zlen m < 2 ^ 63 -> enough f (hp t) (zlen m) ->
  (exists t' st, insert_loop f k t = Done t' st /\ rep t' m /\ hp t <= hp t' /\ final t' k st) \/
  (exists t', insert_loop f k t = TooLow t' /\ rep t' m /\ hp t <= hp t' /\ absent (view t') k /\ packed (hp t) m k /\ (nothrow = true -> stuck t' k)).
Proof.
  induction f as [|f IH]; intros k t m R B EN; [destruct EN; lia|].
  assert (H : 0 <= hp t) by apply R. cbn [CuckooModel.insert_loop]. cbv zeta. fold (I1 (hp t) k). fold (I2 (hp t) k).
  destruct (lock_two_ok hash (I1 (hp t) k) (I2 (hp t) k) t (r_wf _ _ R) (I1_range hash _ k H) (I2_range hash _ k H)) as (t0 & E0 & W0 & S0 & M1 & M2). rewrite E0. cbn [rbind].
  assert (R0 := rep_same _ _ _ R W0 S0). assert (HP0 : hp t0 = hp t) by apply S0.
  destruct (cuckoo_insert_ok hash keq simple keq_spec f k t0 W0 (r_shape _ _ R0) (r_uniq _ _ R0)) as (t1 & st & E1 & W1 & SH & PL); rewrite ?HP0; try assumption.
  rewrite HP0 in E1. rewrite E1. cbn [rbind]. assert (R1 := rep_shuffled _ _ _ R0 W1 SH). assert (HP1 : hp t1 = hp t) by (rewrite (h_hp _ _ _ SH); assumption).
  destruct st as [i s|i s|].
  - left. exists t1, (SOk i s). split; [reflexivity|]. split; [assumption|]. split; [lia|]. cbn in PL |- *. rewrite HP1. rewrite HP0 in PL. exact PL.
  - left. exists t1, (SDuplicated i s). split; [reflexivity|]. split; [assumption|]. split; [lia|]. cbn in PL |- *. rewrite HP1. rewrite HP0 in PL. exact PL.
  - cbn in PL. destruct PL as (SM & AB & FU). rewrite HP0 in FU.
    assert (STUCK : load_too_low t1 = true -> stuck t1 k).
    { intros LL. split; [exact LL|]. rewrite HP1. intros n b LE RE s S. rewrite (s_view _ _ _ SM). apply (FU n b LE); [|exact S].
      destruct RE as (r & ss & A1 & A2 & A3 & A4). exists r, ss. repeat split; auto. clear - A4 SM. revert A4. generalize (root (I1 (hp t) k) (I2 (hp t) k) r). intros b0 A4.
      revert b0 A4. induction ss as [|x ss IHs]; intros b0 A4; cbn in *; [assumption|]. destruct A4 as (e & E & A4). exists e. rewrite <- (s_view _ _ _ SM). auto. }
    assert (PK : packed (hp t) m k).
    { exists t0. split; [assumption|]. split; [lia|]. rewrite HP0. split; apply (FU 0%nat); try lia; [exists 0, []|exists 1, []]; repeat split; auto; constructor. }
    destruct (load_too_low t1) eqn:LL.
    { right. exists t1. assert (X : (if nothrow then fast_double hash t1 else expand_simple hash (fun e n => rbind (insert_loop f (e_key e) n) (fun n1 st => match st with SOk i s => add_to_bucket i s (pk (e_key e)) (e_key e) (e_val e) n1 | _ => Done n1 tt end)) (hp t + 1) t1) = TooLow t1).
      { destruct nothrow; [unfold fast_double|unfold expand_simple]; now rewrite LL. }
      rewrite X. cbn [rbind]. split; [reflexivity|]. split; [assumption|]. split; [lia|]. auto. }
    assert (EN1 : enough (S f) (hp t1) (zlen m)) by (rewrite HP1; exact EN). destruct (enough_next f t1 m R1 B LL EN1) as [EF HB].
    destruct nothrow eqn:NT.
    + destruct (fast_double_ok hash t1 W1 (r_shape _ _ R1) (r_uniq _ _ R1) LL) as (t2 & E2 & W2 & H2 & S2 & U2 & HO & CO). rewrite E2. cbn [rbind].
      assert (R2 : rep t2 m). { split; auto. - apply R1. - intros k' v'. rewrite (r_in _ _ R1). symmetry. now apply has_of_holds. - rewrite CO. apply R1. }
      destruct (IH k t2 m R2 B) as [(t' & st & E & R' & HP' & F)|(t' & E & R' & HP' & F)].
      * now rewrite H2.
      * left. exists t', st. split; [exact E|]. split; [assumption|]. split; [lia|assumption].
      * right. exists t'. split; [exact E|]. split; [assumption|]. split; [lia|]. destruct F as (F1 & F2 & F3). split; [assumption|]. split; [rewrite ?HP1; exact PK|assumption].
    + rewrite <- HP1.
      match goal with |- context [expand_simple hash ?g (hp t1 + 1) t1] => set (ins := g) end.
      destruct (expand_ok ins t1 m R1 HB LL) as [(t2 & E2 & R2 & H2)|(t2 & E2 & R2 & H2)].
      { intros e n m' RN HN LN NI. unfold ins. destruct (IH (e_key e) n m' RN ltac:(lia)) as [(n1 & st & E & R' & HP' & F)|(n1 & E & _)].
        - eapply enough_mono; [exact EF|lia|lia].
        - rewrite E. cbn [rbind]. destruct st as [i s|i s|]; [|exfalso|contradiction].
          + left. destruct (add_to_bucket_ok n1 m' i s (e_key e) (e_val e) R' F) as (n2 & E2 & R2 & H2). exists n2. split; [exact E2|]. split; [exact R2|]. lia.
          + destruct F as (e' & _ & _ & X & Q & _). apply NI. apply in_map_iff. exists (e_key e, e_val e'). split; [reflexivity|]. apply (r_in _ _ R'). exists e'. split; [exists i, s; exact X|auto].
        - right. exists n1. now rewrite E. }
      * rewrite E2. cbn [rbind]. destruct (IH k t2 m R2 B) as [(t' & st & E & R' & HP' & F)|(t' & E & R' & HP' & F)].
        -- eapply enough_mono; [exact EF|lia|lia].
        -- left. exists t', st. split; [exact E|]. split; [assumption|]. split; [lia|assumption].
        -- right. exists t'. split; [exact E|]. split; [assumption|]. split; [lia|]. destruct F as (F1 & F2 & F3). split; [assumption|]. split; [rewrite ?HP1; exact PK|assumption].
      * right. exists t2. rewrite E2. cbn [rbind]. split; [reflexivity|]. split; [assumption|]. split; [lia|]. split; [|split; [rewrite ?HP1; exact PK|discriminate]].
        apply (rep_absent t2 m k R2). now apply (rep_absent t1 m k R1).
Qed.
End Proofs.
