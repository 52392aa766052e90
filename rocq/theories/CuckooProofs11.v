(** Every critical section keeps the mappings or has the effect of the call. *)

From Coq Require Import ZArith List Lia Bool.
From Verif Require Import Base Bits CuckooModel CuckooRunModel CuckooThreadsModel CuckooProofs1 CuckooProofs2 CuckooProofs3 CuckooProofs4 CuckooProofs5 CuckooProofs6 CuckooProofs7 CuckooProofs8 CuckooProofs9 CuckooProofs10.
From Verif Require ConcMapModel.
From Verif Require Import CuckooSpec.
Import ListNotations.
Open Scope Z_scope.

Section Proofs.
Context {K V : Type} (hash : K -> Z) (keq : K -> K -> bool) (simple nothrow : bool).
Context (keq_spec : forall a b, keq a b = true <-> a = b).
Notation entry := (@entry K V). Notation table := (@table K V). Notation cells := (@cells K V).
Notation op := (@CuckooSpec.op K V). Notation ans := (@CuckooSpec.ans K V).
Notation I1 := (I1 hash). Notation I2 := (I2 hash). Notation view := (view hash).
Notation wf0 := (wf0 hash). Notation wf := (wf hash). Notation same := (same hash). Notation shape := (shape hash).
Notation pk k := (partial_key (hash k)). Notation rep := (rep hash).
Notation t_find := (ConcMapModel.t_find keq). Notation t_assign := (ConcMapModel.t_assign keq). Notation t_erase := (ConcMapModel.t_erase keq).
Notation section := (section hash keq simple nothrow). Notation pc := (@pc K V). Notation dict_of := (dict_of keq).
Notation ok_pc := (ok_pc hash). Notation goes := (goes hash keq simple nothrow). Notation outcome := (outcome keq). Notation back := (back hash).

Lemma buckets (h : Z) k : bucket1 hash h k = I1 h k /\ bucket2 hash h k = I2 h k.
Proof. split; reflexivity. Qed.

(** The three ways a section ends. *)
Lemma goes_on o p (t : table) m t' p' : section p t = Done t' p' -> rep t' m -> ok_pc p' -> doing p' = Some o ->
  (seen p' = true -> seen p = true \/ exists k v, o = Put k v /\ t_find k m = None) -> goes o p t m.
Proof. intros E R OK D S. exists t', p', m. split; [exact E|]. split; [exact R|]. split; [lia|]. split; [exact OK|]. left. auto. Qed.
Lemma goes_stored k v p (t : table) m t' : section p t = Done t' (Reply (Stored (match t_find k m with None => true | Some _ => false end))) -> rep t' (t_assign k v m) -> goes (Put k v) p t m.
Proof.
  intros E R. exists t', (Reply (Stored (match t_find k m with None => true | Some _ => false end))), (t_assign k v m). split; [exact E|]. split; [exact R|]. split; [apply zlen_assign|]. split; [exact I|].
  right. left. eexists. split; [reflexivity|]. now apply legal_put.
Qed.
Lemma goes_back o p (t : table) m : section p t = Done t (Start o) -> rep t m -> locked_op o -> goes o p t m.
Proof. intros E R L. eapply goes_on; [exact E|exact R|exact L|reflexivity|discriminate]. Qed.

Lemma start_goes o (t : table) m : rep t m -> zlen m < 2 ^ 63 -> locked_op o -> goes o (Start o) t m.
Proof.
  intros R B L. assert (H : 0 <= hp t) by apply R. destruct o as [k|k v|k| | |]; try contradiction.
  1-3: eapply goes_on; [reflexivity|exact R|cbn; auto|reflexivity|discriminate].
  assert (B2 : zlen m < 2 ^ 64) by (assert (2 ^ 63 < 2 ^ 64) by reflexivity; lia).
  destruct (walk_ok hash t m R B2) as (t' & l & E & R' & _ & _ & N & IN & _).
  exists t', (Reply (Mappings l)), m. split; [cbn [CuckooThreadsModel.section]; now rewrite E|]. split; [exact R'|]. split; [lia|]. split; [exact I|].
  right. left. eexists. split; [reflexivity|]. cbn. split; [reflexivity|]. split; [exact N|]. intros k v. rewrite IN. symmetry. apply t_find_in; [assumption|apply R].
Qed.
Lemma try_goes o h (t : table) m : rep t m -> 0 <= h -> (match o with Get _ | Put _ _ | Del _ => True | _ => False end) -> goes o (Try o h) t m.
Proof.
  intros R H L. destruct o as [k|k v|k| | |]; try contradiction; clear L.
  - destruct (Z.eqb_spec (hp t) h) as [<-|NE]; [|apply goes_back; [cbn [CuckooThreadsModel.section]; now replace (hp t =? h) with false by lia|exact R|exact I]].
    destruct (find_ok hash keq simple keq_spec k t m R) as (t' & E & R' & _). unfold find in E. cbv zeta in E.
    assert (X : section (Try (Get k) (hp t)) t = Done t' (Reply (Found (t_find k m)))).
    { cbn [CuckooThreadsModel.section]. rewrite Z.eqb_refl. unfold bucket2, bucket1.
      destruct (lock_two hash _ _ t) as [t1 []| | |]; cbn [rbind] in E |- *; try discriminate.
      destruct (cuckoo_find keq simple t1 k _ _ _) as [[i s]|]; [destruct (cell t1 i s); [|discriminate]|]; injection E as <- E; now rewrite E. }
    exists t', (Reply (Found (t_find k m))), m. split; [exact X|]. split; [exact R'|]. split; [lia|]. split; [exact I|]. right. left. eexists. split; [reflexivity|]. cbn. auto.
  - destruct (Z.eqb_spec (hp t) h) as [<-|NE]; [|apply goes_back; [cbn [CuckooThreadsModel.section]; now replace (hp t =? h) with false by lia|exact R|exact I]].
    destruct (lock_two_ok hash (I1 (hp t) k) (I2 (hp t) k) t (r_wf _ _ _ R) (I1_range hash _ k H) (I2_range hash _ k H)) as (t1 & E1 & W1 & S1 & M1 & M2).
    assert (R1 := rep_same _ _ _ _ R W1 S1). assert (HP1 : hp t1 = hp t) by apply S1. pose proof (try_both_ok hash keq simple keq_spec k t1 m R1) as T. rewrite HP1 in T. specialize (T M1 M2).
    destruct (try_both hash keq simple k (I1 (hp t) k) (I2 (hp t) k) t1) as [st|] eqn:TB.
    + destruct (finish_ok hash keq keq_spec k v st t1 m R1 T) as (t' & E & R'). eapply goes_stored; [|exact R'].
      cbn [CuckooThreadsModel.section]. rewrite Z.eqb_refl. destruct (buckets (hp t) k) as [-> ->]. rewrite E1. cbn [rbind]. rewrite TB. exact E.
    + eapply goes_on; [|exact R1| | |].
      * cbn [CuckooThreadsModel.section]. rewrite Z.eqb_refl. destruct (buckets (hp t) k) as [-> ->]. rewrite E1. cbn [rbind]. rewrite TB. reflexivity.
      * split; [assumption|]. now apply queue_start.
      * reflexivity.
      * intros _. right. exists k, v. auto.
  - destruct (Z.eqb_spec (hp t) h) as [<-|NE]; [|apply goes_back; [cbn [CuckooThreadsModel.section]; now replace (hp t =? h) with false by lia|exact R|exact I]].
    destruct (erase_ok hash keq simple keq_spec k t m R) as (t' & E & R' & _). unfold erase in E. cbv zeta in E.
    assert (X : section (Try (Del k) (hp t)) t = Done t' (Reply (Removed (match t_find k m with None => false | Some _ => true end)))).
    { cbn [CuckooThreadsModel.section]. rewrite Z.eqb_refl. unfold bucket2, bucket1.
      destruct (lock_two hash _ _ t) as [t1 []| | |]; cbn [rbind] in E |- *; try discriminate.
      destruct (cuckoo_find keq simple t1 k _ _ _) as [[i s]|]; [destruct (del_from_bucket i s t1) as [t2 []| | |]; cbn [rbind] in E |- *; try discriminate|]; injection E as <- E; now rewrite <- E. }
    exists t', (Reply (Removed (match t_find k m with None => false | Some _ => true end))), (t_erase k m). split; [exact X|]. split; [exact R'|]. split; [pose proof (zlen_erase keq k m); lia|]. split; [exact I|].
    right. left. eexists. split; [reflexivity|]. now apply legal_del.
Qed.

Lemma search_goes k v h q last (t : table) m : rep t m -> 0 <= h -> ok_queue h q last -> goes (Put k v) (Search k v h q last) t m.
Proof.
  intros R H Q. destruct q as [|x q].
  { eapply goes_on; [reflexivity|exact R|exact I|reflexivity|intros _; left; reflexivity]. }
  destruct (Z.eqb_spec (hp t) h) as [<-|NE]; [|apply goes_back; [cbn [CuckooThreadsModel.section]; now replace (hp t =? h) with false by lia|exact R|exact I]].
  assert (RX : 0 <= b_bucket x < 2 ^ hp t).
  { destruct Q as (qa & qb & n & E & Q). pose proof (u_node _ _ _ _ _ Q) as N. rewrite <- E in N. inversion N as [|? ? (r & ss & _ & _ & _ & _ & X) _]; subst. exact X. }
  destruct (lock_one_ok hash (b_bucket x) t (r_wf _ _ _ R) RX) as (t1 & E1 & W1 & S1 & M1). assert (R1 := rep_same _ _ _ _ R W1 S1).
  pose proof (scan_queue (hp t) x q last (cell t1 (b_bucket x)) H Q) as SC.
  destruct (scan (hp t) (cell t1 (b_bucket x)) x 0 slots q last) as [y|q2 last2|] eqn:SE; [| |contradiction].
  - destruct SC as (r & ss & s & RR & OK & D & C).
    assert (X : section (Search k v (hp t) (x :: q) last) t = Done t1 (Follow k v (hp t) (if r =? 0 then I1 (hp t) k else I2 (hp t) k) (ss ++ [s]) [])).
    { cbn [CuckooThreadsModel.section]. rewrite Z.eqb_refl, E1. cbn [rbind]. rewrite SE. unfold follow_start. rewrite D, C.
      replace (Z.to_nat (Z.of_nat (length ss) + 1)) with (length (ss ++ [s])) by (rewrite app_length; cbn; lia). rewrite decode_code by exact OK. rewrite app_nil_r.
      destruct RR as [-> | ->]; reflexivity. }
    eapply goes_on; [exact X|exact R1| |reflexivity|intros _; left; reflexivity].
    split; [assumption|]. split; [assumption|]. split; [now destruct ss|]. cbn. destruct (r =? 0); auto.
  - eapply goes_on; [|exact R1| | |]; [cbn [CuckooThreadsModel.section]; rewrite Z.eqb_refl, E1; cbn [rbind]; rewrite SE; reflexivity| |reflexivity|intros _; left; reflexivity].
    split; assumption.
Qed.

Lemma follow_goes k v h b ss acc (t : table) m : rep t m -> 0 <= h -> ok_slots ss -> ss <> [] -> back h k b acc -> goes (Put k v) (Follow k v h b ss acc) t m.
Proof.
  intros R H OK NE BK. destruct ss as [|s ss]; [contradiction|]. clear NE. inversion OK as [|? ? SR OK']; subst.
  destruct (Z.eqb_spec (hp t) h) as [<-|NE]; [|apply goes_back; [cbn [CuckooThreadsModel.section]; now replace (hp t =? h) with false by lia|exact R|exact I]].
  assert (RB := back_range hash _ _ _ _ H BK).
  destruct (lock_one_ok hash b t (r_wf _ _ _ R) RB) as (t1 & E1 & W1 & S1 & M1). assert (R1 := rep_same _ _ _ _ R W1 S1). assert (HP1 : hp t1 = hp t) by apply S1.
  destruct (cell t1 b s) as [e|] eqn:CE.
  - assert (VE : view t1 b s = Some e) by (rewrite (view_cell hash t1); [assumption|rewrite HP1; assumption|assumption]).
    destruct (r_shape _ _ _ R1 _ _ _ VE) as (_ & _ & P & Q). rewrite HP1 in Q.
    destruct ss as [|s' ss].
    + eapply goes_on; [cbn [CuckooThreadsModel.section]; rewrite Z.eqb_refl, E1; cbn [rbind]; rewrite CE; reflexivity|exact R1| |reflexivity|intros _; left; reflexivity].
      split; [assumption|]. split; assumption.
    + assert (IT : (b =? index_hash (hp t) (hash (e_key e))) || (b =? alt_index (hp t) (partial_key (hash (e_key e))) (index_hash (hp t) (hash (e_key e)))) = true).
      { apply orb_true_iff. rewrite !Z.eqb_eq. exact Q. }
      eapply goes_on; [cbn [CuckooThreadsModel.section]; rewrite Z.eqb_refl, E1; cbn [rbind]; rewrite CE; cbv zeta; rewrite IT; reflexivity|exact R1| |reflexivity|intros _; left; reflexivity].
      split; [assumption|]. split; [assumption|]. split; [discriminate|]. cbn. auto.
  - eapply goes_on; [cbn [CuckooThreadsModel.section]; rewrite Z.eqb_refl, E1; cbn [rbind]; rewrite CE; reflexivity|exact R1| |reflexivity|intros _; left; reflexivity].
    split; [assumption|]. split; assumption.
Qed.

(** Moving one entry to its other bucket. *)
Lemma move_one_ok (t : table) m fb fs tb ts e : rep t m -> 0 <= fb < 2 ^ hp t -> 0 <= tb < 2 ^ hp t -> 0 <= ts < 4 -> migrated t (lock_ind fb) = true -> migrated t (lock_ind tb) = true ->
  cell t fb fs = Some e -> cell t tb ts = None -> tb = alt_index (hp t) (pk (e_key e)) fb ->
  rep (with_cell t (set_cell (set_cell (cell t) tb ts (Some e)) fb fs None)) m /\ cell (with_cell t (set_cell (set_cell (cell t) tb ts (Some e)) fb fs None)) fb fs = None.
Proof.
  intros R RF RT RS MF MT CE CN A. assert (H : 0 <= hp t) by apply R. assert (W := r_wf _ _ _ R). set (t2 := with_cell t _).
  assert (E : view t fb fs = Some e) by (now rewrite (view_cell hash t)). assert (FR : view t tb ts = None) by (now rewrite (view_cell hash t)).
  destruct (r_shape _ _ _ R _ _ _ E) as (_ & RFS & P & _).
  assert (V2 : forall i s, view t2 i s = displace (view t) fb fs tb ts e i s).
  { intros i s. unfold t2, displace. set (ta := with_cell t (set_cell (cell t) tb ts (Some e))).
    change (with_cell t (set_cell (set_cell (cell t) tb ts (Some e)) fb fs None)) with (with_cell ta (set_cell (cell ta) fb fs None)).
    rewrite view_with_cell by assumption. apply set_ext. unfold ta. now rewrite view_with_cell by assumption. }
  assert (W2 : wf t2).
  { unfold t2. set (ta := with_cell t (set_cell (cell t) tb ts (Some e))).
    change (with_cell t (set_cell (set_cell (cell t) tb ts (Some e)) fb fs None)) with (with_cell ta (set_cell (cell ta) fb fs None)).
    apply wf_with_cell; [apply wf_with_cell; assumption|exact MF]. }
  destruct (displace_ok hash (hp t) (view t) fb fs tb ts e H (r_shape _ _ _ R) (r_uniq _ _ _ R) E FR RS ltac:(now rewrite P)) as (D1 & D2 & D3 & D4).
  split.
  - apply (rep_shuffled hash t); [assumption|assumption|]. split; try reflexivity.
    + eapply shape_ext; [exact V2|exact D1]. + eapply uniq_ext; [exact V2|exact D2]. + intros x. rewrite (holds_ext _ _ x V2). apply D3.
  - unfold t2. cbn [with_cell cell]. apply set_same.
Qed.

Lemma move_goes k v h to before (t : table) m : rep t m -> 0 <= h -> 0 <= r_slot to < 4 -> back h k (r_bucket to) before -> goes (Put k v) (Move k v h to before) t m.
Proof.
  intros R H ST BK. assert (RT := back_range hash _ _ _ _ H BK).
  destruct (Z.eqb_spec (hp t) h) as [<-|NE].
  2: { apply goes_back; [|exact R|exact I]. destruct before; cbn [CuckooThreadsModel.section]; now replace (hp t =? h) with false by lia. }
  assert (AGAIN : forall t1 before, rep t1 m -> section (Move k v (hp t) to before) t = Done t1 (search_start hash k v (hp t)) -> goes (Put k v) (Move k v (hp t) to before) t m).
  { intros t1 bf R1 E. eapply goes_on; [exact E|exact R1| |reflexivity|intros _; left; reflexivity]. split; [assumption|]. now apply queue_start. }
  destruct before as [|from before].
  - destruct (lock_two_ok hash (I1 (hp t) k) (I2 (hp t) k) t (r_wf _ _ _ R) (I1_range hash _ k H) (I2_range hash _ k H)) as (t1 & E1 & W1 & S1 & M1 & M2).
    assert (R1 := rep_same _ _ _ _ R W1 S1). assert (HP1 : hp t1 = hp t) by apply S1.
    destruct (cell t1 (r_bucket to) (r_slot to)) as [e|] eqn:CE.
    + apply (AGAIN t1); [assumption|]. cbn [CuckooThreadsModel.section]. rewrite Z.eqb_refl. destruct (buckets (hp t) k) as [-> ->]. rewrite E1. cbn [rbind]. now rewrite CE.
    + pose proof (place_ok hash keq simple keq_spec k v (r_bucket to) (r_slot to) t1 m R1) as PL. rewrite HP1 in PL. destruct (PL M1 M2 BK ST CE) as (t' & E & R').
      eapply goes_stored; [|exact R']. cbn [CuckooThreadsModel.section]. rewrite Z.eqb_refl. destruct (buckets (hp t) k) as [-> ->]. rewrite E1. cbn [rbind]. rewrite CE. exact E.
  - cbn [CuckooProofs10.back] in BK. destruct BK as (AT & SF & RF & BK).
    assert (LOCK : exists t1, (match before with [] => lock_three hash (I1 (hp t) k) (I2 (hp t) k) (r_bucket to) t | _ => lock_two hash (r_bucket from) (r_bucket to) t end) = Done t1 tt /\ wf t1 /\ same t t1 /\
       migrated t1 (lock_ind (r_bucket from)) = true /\ migrated t1 (lock_ind (r_bucket to)) = true /\
       (before = [] -> migrated t1 (lock_ind (I1 (hp t) k)) = true /\ migrated t1 (lock_ind (I2 (hp t) k)) = true)).
    { destruct before as [|r0 rs0].
      - destruct (lock_three_ok hash (I1 (hp t) k) (I2 (hp t) k) (r_bucket to) t (r_wf _ _ _ R) (I1_range hash _ k H) (I2_range hash _ k H) RT) as (t1 & E1 & W1 & S1 & M1 & M2 & M3). exists t1. do 3 (split; [assumption|]). split; [|auto].
        cbn in BK. destruct BK as [->| ->]; assumption.
      - destruct (lock_two_ok hash (r_bucket from) (r_bucket to) t (r_wf _ _ _ R) RF RT) as (t1 & E1 & W1 & S1 & M1 & M2). exists t1. do 5 (split; [assumption|]). discriminate. }
    destruct LOCK as (t1 & E1 & W1 & S1 & MF & MT & M0). assert (R1 := rep_same _ _ _ _ R W1 S1). assert (HP1 : hp t1 = hp t) by apply S1.
    destruct (buckets (hp t) k) as [B1 B2].
    destruct (cell t1 (r_bucket to) (r_slot to)) as [e'|] eqn:CT.
    { apply (AGAIN t1); [assumption|]. cbn [CuckooThreadsModel.section]. rewrite Z.eqb_refl, B1, B2, E1. cbn [rbind]. now rewrite CT. }
    destruct (cell t1 (r_bucket from) (r_slot from)) as [e|] eqn:CF.
    2: { apply (AGAIN t1); [assumption|]. cbn [CuckooThreadsModel.section]. rewrite Z.eqb_refl, B1, B2, E1. cbn [rbind]. now rewrite CT, CF. }
    destruct (Z.eqb_spec (hash (e_key e)) (r_hash from)) as [HE|HE].
    2: { apply (AGAIN t1); [assumption|]. cbn [CuckooThreadsModel.section]. rewrite Z.eqb_refl, B1, B2, E1. cbn [rbind]. rewrite CT, CF. now replace (hash (e_key e) =? r_hash from) with false by lia. }
    assert (MOVED := move_one_ok t1 m (r_bucket from) (r_slot from) (r_bucket to) (r_slot to) e R1). rewrite HP1 in MOVED.
    destruct (MOVED RF RT ST MF MT CF CT ltac:(now rewrite HE)) as [R2 C2]. set (t2 := with_cell t1 (set_cell (set_cell (cell t1) (r_bucket to) (r_slot to) (Some e)) (r_bucket from) (r_slot from) None)) in *.
    destruct before as [|r0 rs0].
    + destruct (M0 eq_refl) as [M1 M2]. pose proof (place_ok hash keq simple keq_spec k v (r_bucket from) (r_slot from) t2 m R2) as PL. change (hp t2) with (hp t1) in PL. rewrite HP1 in PL.
      destruct (PL M1 M2 BK SF C2) as (t' & E & R'). eapply goes_stored; [|exact R'].
      cbn [CuckooThreadsModel.section]. rewrite Z.eqb_refl, B1, B2, E1. cbn [rbind]. rewrite CT, CF, HE, Z.eqb_refl. exact E.
    + eapply goes_on; [cbn [CuckooThreadsModel.section]; rewrite Z.eqb_refl, E1; cbn [rbind]; rewrite CT, CF, HE, Z.eqb_refl; reflexivity|exact R2| |reflexivity|intros _; left; reflexivity].
      split; [assumption|]. split; assumption.
Qed.

Lemma grow_goes k v h (t : table) m : rep t m -> zlen m < 2 ^ 63 -> goes (Put k v) (Grow k v h) t m.
Proof.
  intros R B. assert (REF : forall t', rep t' m -> section (Grow k v h) t = Done t' (Reply Refused) -> goes (Put k v) (Grow k v h) t m).
  { intros t' R' E. exists t', (Reply Refused), m. split; [exact E|]. split; [exact R'|]. split; [lia|]. split; [exact I|]. right. right. auto. }
  assert (AGAIN : forall t', rep t' m -> section (Grow k v h) t = Done t' (Start (Put k v)) -> goes (Put k v) (Grow k v h) t m).
  { intros t' R' E. eapply goes_on; [exact E|exact R'|exact I|reflexivity|discriminate]. }
  destruct nothrow eqn:NT.
  - destruct (load_too_low t) eqn:LL; [apply (REF t); [assumption|]; cbn [CuckooThreadsModel.section]; now rewrite LL|].
    destruct (hp t =? h) eqn:HE; [|apply (AGAIN t); [assumption|]; cbn [CuckooThreadsModel.section]; now rewrite LL, HE].
    destruct (fast_double_ok hash t (r_wf _ _ _ R) (r_shape _ _ _ R) (r_uniq _ _ _ R) LL) as (t2 & E2 & W2 & H2 & S2 & U2 & HO & CO).
    apply (AGAIN t2); [|cbn [CuckooThreadsModel.section]; rewrite LL, HE; cbn [negb]; now rewrite E2].
    split; auto. + apply R. + intros k' v'. rewrite (r_in _ _ _ R). symmetry. now apply has_of_holds. + rewrite CO. apply R.
  - match goal with |- CuckooProofs10.goes _ _ _ _ _ ?p _ _ => remember p as p0 eqn:P0 end.
    assert (X : section p0 t = match expand_simple hash (fun e n =>
                rbind (insert_loop hash keq simple false rounds (e_key e) n) (fun n1 st =>
                  match st with
                  | SOk i s => add_to_bucket i s (partial_key (hash (e_key e))) (e_key e) (e_val e) n1
                  | _ => Done n1 tt
                  end)) (h + 1) t with
        | Done t1 _ => Done t1 (Start (Put k v))
        | TooLow t1 => Done t1 (Reply Refused)
        | Fails u => Fails u
        | NoFuel => NoFuel
        end) by (subst p0; rewrite NT; reflexivity).
    match type of X with _ = match expand_simple hash ?g _ _ with _ => _ end => set (ins := g) in X end.
    destruct (expand_any_ok hash ins (h + 1) t m R) as [(t' & E & R')|(t' & E & R')].
    + intros e n m' RN LN NI. unfold ins.
      destruct (insert_loop_ok hash keq simple false keq_spec rounds (e_key e) n m' RN ltac:(lia)) as [(n1 & st & E & R' & HP' & F)|(n1 & E & _)].
      * apply rounds_enough; [apply RN|lia].
      * rewrite E. cbn [rbind]. destruct st as [i s|i s|]; [|exfalso|contradiction].
        -- left. destruct (add_to_bucket_ok hash n1 m' i s (e_key e) (e_val e) R' F) as (n2 & E2 & R2 & H2). exists n2. split; [exact E2|exact R2].
        -- destruct F as (e' & _ & _ & Y & Q & _). apply NI. apply in_map_iff. exists (e_key e, e_val e'). split; [reflexivity|]. apply (r_in _ _ _ R'). exists e'. split; [exists i, s; exact Y|auto].
      * right. exists n1. now rewrite E.
    + subst p0. apply (AGAIN t' R'). rewrite NT in X. rewrite X, E. reflexivity.
    + subst p0. apply (REF t' R'). rewrite NT in X. rewrite X, E. reflexivity.
Qed.

Lemma section_ok p o (t : table) m : rep t m -> zlen m < 2 ^ 63 -> ok_pc p -> doing p = Some o -> goes o p t m.
Proof.
  intros R B OK D. destruct p; cbn in D; try discriminate; injection D as <-; cbn [CuckooProofs10.ok_pc] in OK.
  - now apply start_goes. - destruct OK. now apply try_goes. - destruct OK. now apply search_goes.
  - destruct OK as (? & ? & ? & ?). now apply follow_goes. - destruct OK as (? & ? & ?). now apply move_goes. - now apply grow_goes.
Qed.
End Proofs.
