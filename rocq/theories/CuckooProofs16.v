(** A thread that runs alone finishes its call. *)

From Coq Require Import ZArith List Lia Bool.
From Verif Require Import Base Bits CuckooModel CuckooRunModel CuckooThreadsModel CuckooProofs1 CuckooProofs2 CuckooProofs3 CuckooProofs4 CuckooProofs5 CuckooProofs6 CuckooProofs7 CuckooProofs8 CuckooProofs9 CuckooProofs10 CuckooProofs11 CuckooProofs13.
From Verif Require ConcMapModel.
From Verif Require Import CuckooSpec.
Import ListNotations.
Open Scope Z_scope.

Section Proofs.
Context {K V : Type} (hash : K -> Z) (keq : K -> K -> bool) (simple nothrow : bool).
Context (keq_spec : forall a b, keq a b = true <-> a = b).
Notation entry := (@entry K V). Notation table := (@table K V). Notation cells := (@cells K V).
Notation op := (@CuckooSpec.op K V). Notation ans := (@CuckooSpec.ans K V).
Notation I1 := (I1 hash). Notation I2 := (I2 hash). Notation view := (view hash).
Notation wf := (wf hash). Notation same := (same hash). Notation shape := (shape hash).
Notation pk k := (partial_key (hash k)). Notation rep := (rep hash).
Notation section := (section hash keq simple nothrow). Notation pc := (@pc K V).
Notation ok_pc := (ok_pc hash). Notation goes := (goes hash keq simple nothrow). Notation outcome := (outcome keq). Notation back := (back hash).
Notation search_start := (search_start hash). Notation follow_start := (follow_start hash).

Inductive leads : pc -> table -> pc -> table -> Prop :=
| leads_none p t : leads p t p t
| leads_more p t p1 t1 p2 t2 : section p t = Done t1 p1 -> leads p1 t1 p2 t2 -> leads p t p2 t2.
Lemma leads_one p t p' t' : section p t = Done t' p' -> leads p t p' t'.
Proof. intros E. eapply leads_more; [exact E|constructor]. Qed.
Lemma leads_trans p t p1 t1 p2 t2 : leads p t p1 t1 -> leads p1 t1 p2 t2 -> leads p t p2 t2.
Proof. induction 1; intros; auto. eapply leads_more; eauto. Qed.
Definition ends (p : pc) (t : table) : Prop := exists a t', leads p t (Reply a) t'.
Lemma ends_after p t p' t' : leads p t p' t' -> ends p' t' -> ends p t.
Proof. intros L (a & t2 & E). exists a, t2. eapply leads_trans; eauto. Qed.

Lemma place_reply k v h b s (t t' : table) p : CuckooThreadsModel.place hash keq simple k v h b s t = Done t' p -> exists a, p = Reply a.
Proof.
  unfold CuckooThreadsModel.place, finish. destruct (negb _); [discriminate|]. destruct (cell t b s); [discriminate|]. destruct (cuckoo_find _ _ _ _ _ _ _) as [[i s']|].
  - destruct (cell t i s'); [|discriminate]. intros X. injection X as _ <-. eauto.
  - destruct (add_to_bucket _ _ _ _ _ _); cbn [rbind]; try discriminate. intros X. injection X as _ <-. eauto.
Qed.
(** What a section leaves: an answer, or the same mappings. *)
Lemma goes_split o p (t : table) m : goes o p t m -> exists t' p', section p t = Done t' p' /\ ok_pc p' /\ ((exists a, p' = Reply a) \/ (rep t' m /\ doing p' = Some o)).
Proof.
  intros (t' & p' & m' & E & R & _ & OK & OUT). exists t', p'. split; [exact E|]. split; [exact OK|]. destruct OUT as [(D & -> & _)|[(a & -> & _)|(_ & -> & _)]]; eauto.
Qed.

(** *** The search for a path *)
Lemma search_alone k v h : 0 <= h -> forall f q last (t t1 : table) y m, rep t m -> hp t = h -> ok_queue h q last -> search hash f q last t = Done t1 y ->
  rep t1 m /\ hp t1 = h /\ ((b_depth y = -1 /\ leads (Search k v h q last) t (Grow k v h) t1) \/
  (0 <= b_depth y /\ exists p', follow_start k v h y t1 = Done t1 p' /\ ok_pc p' /\ leads (Search k v h q last) t p' t1)).
Proof.
  intros H. induction f as [|f IH]; intros q last t t1 y m R HT OQ E; [discriminate|]. cbn [search] in E. destruct q as [|x q].
  - injection E as <- <-. split; [assumption|]. split; [assumption|]. left. split; [reflexivity|]. apply leads_one. reflexivity.
  - assert (RX : 0 <= b_bucket x < 2 ^ hp t).
    { rewrite HT. destruct OQ as (qa & qb & n & E' & Q). pose proof (u_node _ _ _ _ _ Q) as N. rewrite <- E' in N. inversion N as [|? ? (r & ss & _ & _ & _ & _ & X) _]; subst. exact X. }
    destruct (lock_one_ok hash (b_bucket x) t (r_wf _ _ _ R) RX) as (t0 & E0 & W0 & S0 & M0). assert (R0 := rep_same _ _ _ _ R W0 S0). assert (HP0 : hp t0 = h) by (rewrite <- HT; apply S0).
    rewrite E0 in E. cbn [rbind] in E. rewrite HP0 in E.
    pose proof (scan_queue h x q last (cell t0 (b_bucket x)) H OQ) as SC.
    assert (ST : section (Search k v h (x :: q) last) t = match scan h (cell t0 (b_bucket x)) x 0 slots q last with
        | CuckooModel.Found y => follow_start k v h y t0 | Queued q2 last2 => Done t0 (Search k v h q2 last2) | Overfull => Fails OutOfBounds end).
    { cbn [CuckooThreadsModel.section]. rewrite HT, Z.eqb_refl, E0. reflexivity. }
    destruct (scan h (cell t0 (b_bucket x)) x 0 slots q last) as [z|q2 last2|] eqn:SE; [| |discriminate].
    + injection E as -> ->. split; [assumption|]. split; [assumption|]. right. destruct SC as (r & ss & s & RR & OK & D & C). split; [lia|].
      assert (X : follow_start k v h y t1 = Done t1 (Follow k v h (if r =? 0 then I1 h k else I2 h k) (ss ++ [s]) [])).
      { unfold CuckooThreadsModel.follow_start. rewrite D, C. replace (Z.to_nat (Z.of_nat (length ss) + 1)) with (length (ss ++ [s])) by (rewrite app_length; cbn; lia).
        rewrite decode_code by exact OK. rewrite app_nil_r. destruct RR as [-> | ->]; reflexivity. }
      eexists. split; [exact X|]. split; [|apply leads_one; rewrite ST; exact X].
      split; [assumption|]. split; [assumption|]. split; [now destruct ss|]. cbn. destruct (r =? 0); auto.
    + destruct (IH q2 last2 t0 t1 y m R0 HP0 SC E) as (A & B & C). split; [exact A|]. split; [exact B|].
      destruct C as [[D L]|[D (p' & F & OK & L)]]; [left|right]; (split; [exact D|]).
      * eapply leads_more; [exact ST|exact L].
      * exists p'. split; [exact F|]. split; [exact OK|]. eapply leads_more; [exact ST|exact L].
Qed.

Lemma follow_alone k v h : 0 <= h -> forall ss b acc (t t1 : table) r m, rep t m -> hp t = h -> ok_slots ss -> ss <> [] -> back h k b acc -> follow hash b ss t = Done t1 r ->
  exists to bf, rev r ++ acc = to :: bf /\ leads (Follow k v h b ss acc) t (Move k v h to bf) t1 /\ rep t1 m /\ hp t1 = h /\ ok_pc (Move k v h to bf).
Proof.
  intros H. induction ss as [|s ss IH]; intros b acc t t1 r m R HT OS NE BK E; [contradiction|]. clear NE. cbn [follow] in E.
  assert (RB := back_range hash _ _ _ _ H BK). rewrite <- HT in RB.
  destruct (goes_split _ _ _ _ (follow_goes hash keq simple nothrow k v h b (s :: ss) acc t m R H OS ltac:(discriminate) BK)) as (t2 & p2 & E2 & OK2 & Q2).
  destruct (lock_one_ok hash b t (r_wf _ _ _ R) RB) as (t0 & E0 & W0 & S0 & M0). assert (R0 := rep_same _ _ _ _ R W0 S0). assert (HP0 : hp t0 = h) by (rewrite <- HT; apply S0).
  pose proof E2 as E3. cbn [CuckooThreadsModel.section] in E3. rewrite HT, Z.eqb_refl in E3. rewrite E0 in E, E3. cbn [rbind] in E, E3. rewrite HP0 in E. inversion OS as [|? ? SR OS']; subst x l.
  destruct (cell t0 b s) as [e|].
  - cbv zeta in E, E3. destruct ss as [|s' ss].
    + cbn [follow rbind] in E. injection E as <- <-. injection E3 as <- <-. exists (mkR b s (hash (e_key e))), acc. split; [reflexivity|].
      split; [apply leads_one; exact E2|]. split; [assumption|]. split; [assumption|exact OK2].
    + destruct ((b =? index_hash h (hash (e_key e))) || _); [|discriminate]. injection E3 as <- <-.
      destruct (follow hash _ (s' :: ss) t0) as [t3 r3| | |] eqn:F; cbn [rbind] in E; try discriminate. injection E as <- <-.
      destruct OK2 as (_ & _ & _ & BK2). destruct (IH _ _ _ _ _ m R0 HP0 OS' ltac:(discriminate) BK2 F) as (to & bf & EQ & L & R3 & H3 & OK3). exists to, bf.
      split; [cbn [rev]; now rewrite <- app_assoc|]. split; [eapply leads_more; [exact E2|exact L]|]. auto.
  - injection E as <- <-. injection E3 as <- <-. exists (mkR b s 0), acc. split; [reflexivity|]. split; [apply leads_one; exact E2|]. split; [assumption|]. split; [assumption|exact OK2].
Qed.

Lemma move_alone k v h : 0 <= h -> forall before to (t t1 : table) m, rep t m -> hp t = h -> before <> [] -> ok_pc (Move k v h to before) ->
  move_back hash (I1 h k) (I2 h k) to before t = Done t1 true -> ends (Move k v h to before) t.
Proof.
  intros H. induction before as [|from before IH]; intros to t t1 m R HT NE (H1 & ST & BK) E; [contradiction|]. clear NE H1. cbn [move_back] in E.
  destruct (goes_split _ _ _ _ (move_goes hash keq simple nothrow keq_spec k v h to (from :: before) t m R H ST BK)) as (t2 & p2 & E2 & OK2 & Q2).
  pose proof E2 as E3. cbn [CuckooThreadsModel.section] in E3. rewrite HT, Z.eqb_refl in E3. destruct (buckets hash h k) as [B1 B2]. rewrite B1, B2 in E3.
  destruct (match before with [] => lock_three hash (I1 h k) (I2 h k) (r_bucket to) t | _ => lock_two hash (r_bucket from) (r_bucket to) t end) as [t0 u| | |] eqn:E0; cbn [rbind] in E, E3; try discriminate.
  destruct (cell t0 (r_bucket to) (r_slot to)); [discriminate|]. destruct (cell t0 (r_bucket from) (r_slot from)) as [e|]; [|discriminate].
  destruct (hash (e_key e) =? r_hash from); [|discriminate]. cbv zeta in E, E3. destruct before as [|r0 rs0].
  - destruct (place_reply _ _ _ _ _ _ _ _ E3) as [a ->]. exists a, t2. apply leads_one. exact E2.
  - injection E3 as <- <-. destruct Q2 as [[a Q2]|[R2 _]]; [discriminate|]. eapply ends_after; [apply leads_one; exact E2|].
    eapply (IH from); [exact R2| |discriminate|exact OK2|exact E].
    rewrite (section_hp hash keq simple nothrow _ _ _ _ E2) by discriminate. exact HT.
Qed.
Lemma path_alone k v h path to bf (t t1 : table) m : 0 <= h -> rep t m -> hp t = h -> rev path = to :: bf -> ok_pc (Move k v h to bf) ->
  cuckoopath_move hash (I1 h k) (I2 h k) path t = Done t1 true -> ends (Move k v h to bf) t.
Proof.
  intros H R HT RP OK E. destruct path as [|r path]; [discriminate|]. destruct path as [|r' path].
  - cbn in RP. injection RP as <- <-. cbn [cuckoopath_move] in E. destruct OK as (_ & ST & BK).
    destruct (goes_split _ _ _ _ (move_goes hash keq simple nothrow keq_spec k v h r [] t m R H ST BK)) as (t2 & p2 & E2 & OK2 & Q2).
    pose proof E2 as E3. cbn [CuckooThreadsModel.section] in E3. rewrite HT, Z.eqb_refl in E3. destruct (buckets hash h k) as [B1 B2]. rewrite B1, B2 in E3.
    destruct (lock_two hash (I1 h k) (I2 h k) t) as [t0 u| | |]; cbn [rbind] in E, E3; try discriminate. destruct (cell t0 (r_bucket r) (r_slot r)); [discriminate|].
    destruct (place_reply _ _ _ _ _ _ _ _ E3) as [a ->]. exists a, t2. apply leads_one. exact E2.
  - assert (NE : bf <> []). { intros ->. apply (f_equal (@length _)) in RP. rewrite rev_length in RP. discriminate. }
    unfold cuckoopath_move in E. rewrite RP in E. eapply move_alone; eassumption.
Qed.
(** One search, from a hashpower that is up to date: the key gets its place or
    the table is found full. *)
Lemma start_alone k v h (t : table) m : 0 <= h -> rep t m -> hp t = h ->
  ends (search_start k v h) t \/ exists t1, leads (search_start k v h) t (Grow k v h) t1 /\ rep t1 m /\ hp t1 = h.
Proof.
  intros H R HT. destruct (run_cuckoo_ok hash 0 (I1 h k) (I2 h k) t (r_wf _ _ _ R) (r_shape _ _ _ R) (r_uniq _ _ _ R)) as [(t' & E & _)|(t' & b & s & E & _)];
    [rewrite HT; now apply I1_range|rewrite HT; now apply I2_range| |].
  all: cbn [run_cuckoo] in E; unfold cuckoopath_search, slot_search in E.
  all: destruct (search hash _ _ _ t) as [t1 y| | |] eqn:SE; cbn [rbind] in E; try discriminate.
  all: destruct (search_alone k v h H _ _ _ _ _ _ m R HT (queue_start hash h k H) SE) as (R1 & H1 & [[D L]|[D (p' & F & OK & L)]]).
  - right. exists t1. auto.
  - exfalso. replace (b_depth y =? -1) with false in E by lia. destruct (decode _ _ _) as [code ss]. destruct (if code =? 0 then _ else _) as [b|]; [|discriminate].
    destruct (follow hash b ss t1) as [t2 r| | |]; cbn [rbind] in E; try discriminate. destruct (cuckoopath_move _ _ _ _ _) as [t3 []| | |]; cbn [rbind] in E; try discriminate. destruct r; discriminate.
  - exfalso. rewrite D in E. discriminate.
  - left. replace (b_depth y =? -1) with false in E by lia. unfold CuckooThreadsModel.follow_start in F. destruct (decode _ _ _) as [code ss].
    destruct (buckets hash h k) as [B1 B2]. rewrite B1, B2 in F.
    assert (X : exists b0, (if code =? 0 then Some (I1 h k) else if code =? 1 then Some (I2 h k) else None) = Some b0 /\ p' = Follow k v h b0 ss []).
    { destruct (code =? 0); [injection F as <-; eauto|]. destruct (code =? 1); [injection F as <-; eauto|discriminate]. }
    destruct X as (b0 & X & ->). rewrite X in E. destruct (follow hash b0 ss t1) as [t2 r| | |] eqn:FE; cbn [rbind] in E; try discriminate.
    destruct OK as (_ & OS & NE & BK). destruct (follow_alone k v h H ss b0 [] t1 t2 r m R1 H1 OS NE BK FE) as (to & bf & EQ & L2 & R2 & H2 & OK2). rewrite app_nil_r in EQ.
    destruct (cuckoopath_move hash _ _ r t2) as [t3 [|]| | |] eqn:ME; cbn [rbind] in E; try discriminate.
    eapply ends_after; [exact L|]. eapply ends_after; [exact L2|]. eapply path_alone; eassumption.
Qed.

Definition inserting : entry -> table -> res unit := fun e n =>
  rbind (insert_loop hash keq simple nothrow rounds (e_key e) n) (fun n1 st =>
    match st with
    | SOk i s => add_to_bucket i s (partial_key (hash (e_key e))) (e_key e) (e_val e) n1
    | _ => Done n1 tt
    end).
Lemma grow_alone k v (t : table) m : rep t m -> zlen m < 2 ^ 63 -> hp t <= 66 -> load_too_low t = false ->
  exists t' p', section (Grow k v (hp t)) t = Done t' p' /\ ((exists a, p' = Reply a) \/ (p' = Start (Put k v) /\ rep t' m /\ hp t + 1 <= hp t')).
Proof.
  intros R B HB LL. cbn [CuckooThreadsModel.section]. destruct nothrow eqn:NT.
  - rewrite LL, Z.eqb_refl. cbn [negb]. destruct (fast_double_ok hash t (r_wf _ _ _ R) (r_shape _ _ _ R) (r_uniq _ _ _ R) LL) as (t2 & E2 & W2 & H2 & S2 & U2 & HO & CO).
    rewrite E2. cbn [rbind]. exists t2, (Start (Put k v)). split; [reflexivity|]. right. split; [reflexivity|]. split; [|lia].
    split; auto. + apply R. + intros k' v'. rewrite (r_in _ _ _ R). symmetry. now apply has_of_holds. + rewrite CO. apply R.
  - match goal with |- context [expand_simple hash ?g _ _] => set (ins := g) end.
    destruct (expand_ok hash ins t m R HB LL) as [(t2 & E2 & R2 & H2)|(t2 & E2 & R2 & H2)].
    + intros e n m' RN HN LN NI. unfold ins.
      destruct (insert_loop_ok hash keq simple false keq_spec rounds (e_key e) n m' RN ltac:(lia)) as [(n1 & st & E & R' & HP' & F)|(n1 & E & _)].
      * apply rounds_enough; [apply RN|lia].
      * rewrite E. cbn [rbind]. destruct st as [i s|i s|]; [|exfalso|contradiction].
        -- left. destruct (add_to_bucket_ok hash n1 m' i s (e_key e) (e_val e) R' F) as (n2 & E2 & R2 & H2). exists n2. split; [exact E2|]. split; [exact R2|lia].
        -- destruct F as (e' & _ & _ & Y & Q & _). apply NI. apply in_map_iff. exists (e_key e, e_val e'). split; [reflexivity|]. apply (r_in _ _ _ R'). exists e'. split; [exists i, s; exact Y|auto].
      * right. exists n1. now rewrite E.
    + rewrite E2. exists t2, (Start (Put k v)). split; [reflexivity|]. right. auto.
    + rewrite E2. exists t2, (Reply Refused). split; [reflexivity|]. left. eauto.
Qed.
Lemma grow_refuses k v (t : table) : load_too_low t = true -> section (Grow k v (hp t)) t = Done t (Reply Refused).
Proof. intros LL. cbn [CuckooThreadsModel.section]. unfold expand_simple. rewrite LL. now destruct nothrow. Qed.

(** An insertion from its start. *)
Lemma try_put k v (t t' : table) p : section (Try (Put k v) (hp t)) t = Done t' p -> (exists a, p = Reply a) \/ p = search_start k v (hp t).
Proof.
  cbn [CuckooThreadsModel.section]. rewrite Z.eqb_refl. destruct (lock_two _ _ _ _) as [t1 u| | |]; cbn [rbind]; try discriminate.
  destruct (try_both _ _ _ _ _ _ _) as [st|]; [|intros X; injection X as _ <-; auto]. unfold finish. destruct st as [i s|i s|]; [| |discriminate].
  - destruct (add_to_bucket _ _ _ _ _ _); cbn [rbind]; try discriminate. intros X. injection X as _ <-. eauto.
  - destruct (cell t1 i s); [|discriminate]. intros X. injection X as _ <-. eauto.
Qed.
Lemma search_ends k v f : (forall (t : table) m, rep t m -> zlen m < 2 ^ 63 -> enough f (hp t) (zlen m) -> ends (Start (Put k v)) t) ->
  forall (t : table) m, rep t m -> zlen m < 2 ^ 63 -> enough (S f) (hp t) (zlen m) -> ends (search_start k v (hp t)) t.
Proof.
  intros IH t m R B EN. assert (H : 0 <= hp t) by apply R.
  destruct (start_alone k v (hp t) t m H R eq_refl) as [D|(t2 & L & R2 & H2)]; [exact D|].
  eapply ends_after; [exact L|]. rewrite <- H2. rewrite <- H2 in EN. destruct (load_too_low t2) eqn:LL.
  - exists Refused, t2. apply leads_one. now apply grow_refuses.
  - destruct (enough_next hash f t2 m R2 B LL EN) as [EN2 HB]. destruct (grow_alone k v t2 m R2 B HB LL) as (t3 & p3 & E3 & [[a ->]|(-> & R3 & H3)]).
    + exists a, t3. now apply leads_one.
    + eapply ends_after; [apply leads_one; exact E3|]. apply (IH t3 m R3 B). eapply enough_mono; [exact EN2|lia|lia].
Qed.
Lemma put_alone k v : forall f (t : table) m, rep t m -> zlen m < 2 ^ 63 -> enough f (hp t) (zlen m) -> ends (Start (Put k v)) t.
Proof.
  induction f as [|f IH]; intros t m R B EN; [destruct EN; lia|]. assert (H : 0 <= hp t) by apply R.
  eapply ends_after; [apply leads_one; reflexivity|].
  destruct (goes_split _ _ _ _ (try_goes hash keq simple nothrow keq_spec (Put k v) (hp t) t m R H I)) as (t1 & p1 & E1 & OK1 & Q1).
  assert (H1 : hp t1 = hp t) by (apply (section_hp hash keq simple nothrow _ _ _ _ E1); discriminate).
  eapply ends_after; [apply leads_one; exact E1|]. destruct (try_put _ _ _ _ _ E1) as [[a ->]| ->]; [exists a, t1; constructor|].
  destruct Q1 as [[a Q1]|[R1 _]]; [discriminate|]. rewrite <- H1. apply (search_ends k v f IH t1 m R1 B). now rewrite H1.
Qed.
Lemma put_ends k v (t : table) m : rep t m -> zlen m < 2 ^ 63 -> ends (Start (Put k v)) t.
Proof. intros R B. apply (put_alone k v rounds t m R B). apply rounds_enough; [apply R|exact B]. Qed.
Lemma fresh_ends k v (t : table) m : rep t m -> zlen m < 2 ^ 63 -> ends (search_start k v (hp t)) t.
Proof.
  intros R B. apply (search_ends k v rounds) with (m := m); auto; [intros t0 m0 R0 B0 E0; exact (put_ends k v t0 m0 R0 B0)|].
  destruct (rounds_enough (hp t) (zlen m) ltac:(apply R) B) as [_ X]. split; [lia|]. eapply Z.lt_le_trans; [exact X|]. apply Z.pow_le_mono_r; lia.
Qed.

(** From any point of an insertion that others have disturbed. *)
Lemma last_bound h q last : ok_queue h q last -> last <= 682.
Proof.
  intros (qa & qb & k & _ & Q). pose proof (u_k _ _ _ _ _ Q). pose proof (u_last _ _ _ _ _ Q) as L. pose proof (u_len _ _ _ _ _ Q) as N. pose proof (u_4 _ _ _ _ _ Q) as F.
  assert (0 <= zlen qa) by (unfold zlen; lia).
  destruct k as [|[|[|[|[|k]]]]]; try lia; try (specialize (L ltac:(lia)); vm_compute (total _) in L; lia).
  rewrite (F eq_refl) in N. vm_compute (total _) in N. unfold zlen in N. cbn in N. lia.
Qed.
Lemma grow_ends k v h (t : table) m : rep t m -> zlen m < 2 ^ 63 -> ends (Grow k v h) t.
Proof.
  intros R B. destruct (goes_split _ _ _ _ (grow_goes hash keq simple nothrow keq_spec k v h t m R B)) as (t1 & p1 & E1 & OK1 & Q1).
  eapply ends_after; [apply leads_one; exact E1|]. destruct Q1 as [[a ->]|[R1 D]]; [exists a, t1; constructor|].
  assert (X : p1 = Start (Put k v) \/ exists a, p1 = Reply a).
  { clear - E1. cbn [CuckooThreadsModel.section] in E1. destruct nothrow.
    - destruct (load_too_low t); [injection E1 as _ <-; eauto|]. destruct (negb _); [injection E1 as _ <-; eauto|].
      destruct (fast_double hash t); cbn [rbind] in E1; try discriminate. injection E1 as _ <-. auto.
    - destruct (expand_simple _ _ _ _); try discriminate; injection E1 as _ <-; eauto. }
  destruct X as [-> |[a ->]]; [eapply put_ends; eassumption|exists a, t1; constructor].
Qed.
Lemma move_ends k v h : forall before to (t : table) m, rep t m -> zlen m < 2 ^ 63 -> ok_pc (Move k v h to before) -> ends (Move k v h to before) t.
Proof.
  induction before as [|from before IH]; intros to t m R B OK; destruct OK as (H & ST & BK).
  all: destruct (goes_split _ _ _ _ (move_goes hash keq simple nothrow keq_spec k v h to _ t m R H ST BK)) as (t1 & p1 & E1 & OK1 & Q1).
  all: assert (H1 : hp t1 = hp t) by (apply (section_hp hash keq simple nothrow _ _ _ _ E1); discriminate).
  all: eapply ends_after; [apply leads_one; exact E1|]; destruct Q1 as [[a ->]|[R1 D]]; [exists a, t1; constructor|].
  all: cbn [CuckooThreadsModel.section] in E1; destruct (Z.eqb_spec (hp t) h) as [HE|HE]; [|injection E1 as <- <-; eapply put_ends; eassumption].
  - destruct (lock_two _ _ _ t) as [t0 u| | |]; cbn [rbind] in E1; try discriminate. destruct (cell t0 _ _).
    + injection E1 as <- <-. rewrite <- HE, <- H1. eapply fresh_ends; eassumption.
    + destruct (place_reply _ _ _ _ _ _ _ _ E1) as [a ->]. discriminate.
  - destruct (match before with [] => _ | _ => _ end) as [t0 u| | |]; cbn [rbind] in E1; try discriminate.
    assert (AG : Done t0 (search_start k v h) = Done t1 p1 -> ends p1 t1).
    { intros X. injection X as <- <-. rewrite <- HE, <- H1. eapply fresh_ends; eassumption. }
    destruct (cell t0 (r_bucket to) (r_slot to)); [exact (AG E1)|]. destruct (cell t0 (r_bucket from) (r_slot from)) as [e|]; [|exact (AG E1)]. destruct (hash (e_key e) =? r_hash from); [|exact (AG E1)].
    cbv zeta in E1. destruct before as [|r0 rs0].
    + destruct (place_reply _ _ _ _ _ _ _ _ E1) as [a ->]. discriminate.
    + injection E1 as <- <-. eapply IH; eassumption.
Qed.
Lemma follow_ends k v h : forall ss b acc (t : table) m, rep t m -> zlen m < 2 ^ 63 -> ok_pc (Follow k v h b ss acc) -> ends (Follow k v h b ss acc) t.
Proof.
  induction ss as [|s ss IH]; intros b acc t m R B OK; destruct OK as (H & OS & NE & BK); [contradiction|].
  destruct (goes_split _ _ _ _ (follow_goes hash keq simple nothrow k v h b _ acc t m R H OS NE BK)) as (t1 & p1 & E1 & OK1 & Q1).
  eapply ends_after; [apply leads_one; exact E1|]; destruct Q1 as [[a ->]|[R1 D]]; [exists a, t1; constructor|].
  cbn [CuckooThreadsModel.section] in E1. destruct (hp t =? h); [|injection E1 as <- <-; eapply put_ends; eassumption].
  destruct (lock_one _ _ t) as [t0 u| | |]; cbn [rbind] in E1; try discriminate. destruct (cell t0 b s) as [e|].
  - cbv zeta in E1. destruct ss as [|s' ss]; [injection E1 as <- <-; eapply move_ends; eassumption|]. destruct (_ || _); [|discriminate]. injection E1 as <- <-. eapply IH; eassumption.
  - injection E1 as <- <-. eapply move_ends; eassumption.
Qed.
Lemma search_any_ends k v h : forall n q last (t : table) m, rep t m -> zlen m < 2 ^ 63 -> ok_pc (Search k v h q last) -> zlen q + (682 - last) < Z.of_nat n -> ends (Search k v h q last) t.
Proof.
  induction n as [|n IH]; intros q last t m R B OK N; destruct OK as (H & OQ); pose proof (last_bound _ _ _ OQ) as LB; [unfold zlen in N; lia|].
  destruct (goes_split _ _ _ _ (search_goes hash keq simple nothrow k v h q last t m R H OQ)) as (t1 & p1 & E1 & OK1 & Q1).
  eapply ends_after; [apply leads_one; exact E1|]; destruct Q1 as [[a ->]|[R1 D]]; [exists a, t1; constructor|].
  destruct q as [|x q]; cbn [CuckooThreadsModel.section] in E1; [injection E1 as <- <-; eapply grow_ends; eassumption|].
  destruct (hp t =? h); [|injection E1 as <- <-; eapply put_ends; eassumption].
  destruct (lock_one _ _ t) as [t0 u| | |]; cbn [rbind] in E1; try discriminate.
  pose proof (scan_spec h (cell t0 (b_bucket x)) x slots 0 q last) as SP. destruct (scan h _ x 0 slots q last) as [y|q2 last2|]; [| |discriminate].
  - unfold CuckooThreadsModel.follow_start in E1. destruct (decode _ _ _) as [c ss]. destruct (c =? 0); [injection E1 as <- <-; eapply follow_ends; eassumption|]. destruct (c =? 1); [|discriminate]. injection E1 as <- <-; eapply follow_ends; eassumption.
  - injection E1 as <- <-. destruct SP as (_ & ch & Q2 & L2 & _). eapply IH; try eassumption. rewrite Q2, L2. unfold zlen in *. cbn [length] in N. rewrite app_length. lia.
Qed.
(** The other calls. *)
Lemma try_ends o h (t : table) m : rep t m -> zlen m < 2 ^ 63 -> ok_pc (Try o h) -> ends (Try o h) t.
Proof.
  assert (NOW : forall o (t : table) m, rep t m -> zlen m < 2 ^ 63 -> (match o with Get _ | Put _ _ | Del _ => True | _ => False end) -> ends (Try o (hp t)) t).
  { intros o' t' m' R' B' OK. destruct (goes_split _ _ _ _ (try_goes hash keq simple nothrow keq_spec o' (hp t') t' m' R' ltac:(apply R') OK)) as (t1 & p1 & E1 & OK1 & Q1).
    assert (H1 : hp t1 = hp t') by (apply (section_hp hash keq simple nothrow _ _ _ _ E1); discriminate).
    eapply ends_after; [apply leads_one; exact E1|]; destruct Q1 as [[a ->]|[R1 D]]; [exists a, t1; constructor|]. destruct o' as [k|k v|k| | |]; try contradiction.
    - exfalso. cbn [CuckooThreadsModel.section] in E1. rewrite Z.eqb_refl in E1. destruct (lock_two _ _ _ _) as [t0 u| | |]; cbn [rbind] in E1; try discriminate.
      destruct (cuckoo_find _ _ _ _ _ _ _) as [[i s]|]; [destruct (cell t0 i s); [|discriminate]|]; injection E1 as <- <-; discriminate.
    - destruct (try_put _ _ _ _ _ E1) as [[a ->]| ->]; [discriminate|]. rewrite <- H1. eapply fresh_ends; eassumption.
    - exfalso. cbn [CuckooThreadsModel.section] in E1. rewrite Z.eqb_refl in E1. destruct (lock_two _ _ _ _) as [t0 u| | |]; cbn [rbind] in E1; try discriminate.
      destruct (cuckoo_find _ _ _ _ _ _ _) as [[i s]|]; [destruct (del_from_bucket _ _ _); cbn [rbind] in E1; try discriminate|]; injection E1 as <- <-; discriminate. }
  intros R B [H OK]. destruct (Z.eq_dec (hp t) h) as [<-|NE]; [eapply NOW; eassumption|].
  eapply ends_after; [apply leads_one; destruct o; try contradiction; cbn [CuckooThreadsModel.section]; replace (hp t =? h) with false by lia; reflexivity|].
  destruct o; try contradiction; (eapply ends_after; [apply leads_one; reflexivity|eapply NOW; eassumption]).
Qed.
Lemma any_ends p o (t : table) m : rep t m -> zlen m < 2 ^ 63 -> ok_pc p -> doing p = Some o -> ends p t.
Proof.
  intros R B OK D. destruct p as [|o'|o' h|k v h q last|k v h b ss acc|k v h to bf|k v h| | | |]; try discriminate.
  - cbn in OK. destruct o'; try contradiction; try (eapply ends_after; [apply leads_one; reflexivity|eapply try_ends; [eassumption..|split; [apply R|exact I]]]).
    destruct (goes_split _ _ _ _ (start_goes hash keq simple nothrow keq_spec All t m R B I)) as (t1 & p1 & E1 & OK1 & Q1). eapply ends_after; [apply leads_one; exact E1|].
    cbn [CuckooThreadsModel.section] in E1. destruct (walk hash t); cbn [rbind] in E1; try discriminate. injection E1 as <- <-. eexists. eexists. constructor.
  - eapply try_ends; eassumption.
  - apply (search_any_ends k v h (Z.to_nat (zlen q + (682 - last) + 1))) with (m := m); auto. destruct OK as [_ OQ]. pose proof (last_bound _ _ _ OQ). assert (0 <= zlen q) by (unfold zlen; lia). lia.
  - eapply follow_ends; eassumption. - eapply move_ends; eassumption. - eapply grow_ends; eassumption.
Qed.
End Proofs.
