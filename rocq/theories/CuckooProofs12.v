(** Runs of many threads on the table. *)

From Coq Require Import ZArith List Lia Bool.
From Verif Require Import Base Bits CuckooModel CuckooRunModel CuckooThreadsModel CuckooProofs1 CuckooProofs2 CuckooProofs6 CuckooProofs7 CuckooProofs8 CuckooProofs9 CuckooProofs10 CuckooProofs11.
From Verif Require ConcMapModel.
From Verif Require Import ConcMapSpec CuckooSpec.
Import ListNotations.
Open Scope Z_scope.

Section Proofs.
Context {K V : Type} (hash : K -> Z) (keq : K -> K -> bool) (simple nothrow : bool).
Context (keq_spec : forall a b, keq a b = true <-> a = b).
Notation table := (@table K V). Notation op := (@CuckooSpec.op K V). Notation ans := (@CuckooSpec.ans K V). Notation dict := (@CuckooSpec.dict K V).
Notation rep := (rep hash). Notation pc := (@pc K V). Notation dict_of := (dict_of keq). Notation ok_pc := (ok_pc hash).
Notation step := (step hash keq simple nothrow). Notation run := (run hash keq simple nothrow).
Notation event := (@ConcMapSpec.event op ans). Notation status := (@ConcMapSpec.status op ans).
Notation calm_step := (calm_step hash keq simple nothrow). Notation calm_run := (calm_run hash keq simple nothrow).
Definition does (d : dict) (o : op) (d' : dict) (a : ans) : Prop := legal o d a d'.
(** What an atomic map would say of a thread; a thread that has seen its key
    absent may count as refused already. *)
Definition status_of (refused : bool) (p : pc) : status :=
  match p with
  | Idle => NoCall
  | Reply a => Answered a
  | Wipe => Called Clear
  | Zero => Answered Cleared
  | _ => match doing p with Some o => if seen p && refused then Answered Refused else Called o | None => NoCall end
  end.
Definition zeroed (t : table) : table := mkT (hp t) (cell t) (old_hp t) (old t) (nlocks t) (fun _ => 0) (fun _ => true) (remaining t).
(** The mappings, and the threads; one that is between the loops of a clear(). *)
Definition fine (p : pc) : Prop := ok_pc p \/ p = Start Clear \/ p = Wipe.
Definition holding (c : @config K V) (m : list (K * V)) : Prop :=
  (rep (tbl c) m /\ forall i, fine (pcs c i)) \/
  (exists i, pcs c i = Zero /\ (forall j, j <> i -> fine (pcs c j)) /\ rep (zeroed (tbl c)) [] /\ m = []).
Record good (l : list (option event)) (c : config) (m : list (K * V)) : Prop := {
  g_hold : holding c m; g_len : zlen m <= zlen l;
  g_atomic : forall b : nat -> bool, atomic does nothing (history l) (dict_of m) (fun i => status_of (b i) (pcs c i)) }.
Lemma history_app (a b : list (option event)) : history (a ++ b) = history a ++ history b.
Proof. unfold history. apply flat_map_app. Qed.
Lemma atomic_ext s0 h (s : dict) f f' : atomic does s0 h s f -> (forall i, f' i = f i) -> atomic does s0 h s f'.
Proof.
  intros A E. destruct A as [f F|h s f t c f1 A F X|h s f t c f1 s' r A F J X|h s f t r f1 A F X].
  - apply at_start. intros. now rewrite E. - eapply at_call; [exact A|exact F|]. intros. rewrite E. apply X.
  - eapply at_effect; [exact A|exact F|exact J|]. intros. rewrite E. apply X. - eapply at_return; [exact A|exact F|]. intros. rewrite E. apply X.
Qed.
Definition no_size (o : op) : Prop := match o with Size => False | _ => True end.
Definition setb (b : nat -> bool) (i : nat) (x : bool) : nat -> bool := fun j => if Nat.eqb j i then x else b j.
Lemma upd_status (b : nat -> bool) (f : nat -> pc) i p x : status_of (b i) p = x -> forall j, status_of (b j) (set_pc f i p j) = set_status (fun j => status_of (b j) (f j)) i x j.
Proof. intros E j. unfold set_pc, set_status. destruct (Nat.eqb_spec j i); [subst j; exact E|reflexivity]. Qed.
Lemma set_setb (b : nat -> bool) (f : nat -> pc) i x y j : set_status (fun j => status_of (setb b i x j) (f j)) i y j = set_status (fun j => status_of (b j) (f j)) i y j.
Proof. unfold set_status, setb. destruct (Nat.eqb j i); reflexivity. Qed.
Lemma fine_set (f : nat -> pc) i p j : fine p -> (j <> i -> fine (f j)) -> fine (set_pc f i p j).
Proof. intros A B. unfold set_pc. destruct (Nat.eqb_spec j i); [assumption|auto]. Qed.
Lemma no_change (f : nat -> pc) i j : set_pc f i (f i) j = f j.
Proof. unfold set_pc. destruct (Nat.eqb_spec j i); [now subst|reflexivity]. Qed.
Lemma holding_set (c : @config K V) m i p : holding c m -> pcs c i <> Zero -> fine p -> holding (mkC (tbl c) (set_pc (pcs c) i p)) m.
Proof.
  intros [[R F]|(z & PZ & F & R & M)] N OK.
  - left. split; [exact R|]. intros j. cbn. apply fine_set; auto.
  - right. exists z. cbn. assert (z <> i) by congruence. split; [unfold set_pc; rewrite (proj2 (Nat.eqb_neq z i)) by assumption; exact PZ|]. split; [|auto].
    intros j NJ. apply fine_set; auto.
Qed.

(** One step inside a call. *)
Lemma good_inside l (c : @config K V) m i t p : good l c m -> zlen l < 2 ^ 63 -> section hash keq simple nothrow (pcs c i) (tbl c) = Done t p ->
  (forall j, pcs c j = Zero -> j = i) -> exists m', good (l ++ [None]) (mkC t (set_pc (pcs c) i p)) m'.
Proof.
  intros [GH GL GA] LN E CALM. assert (LEN : zlen (l ++ [@None event]) = zlen l + 1) by (rewrite zlen_app; reflexivity).
  assert (HI : history (l ++ [@None event]) = history l) by (rewrite history_app; apply app_nil_r).
  destruct GH as [[GR GP]|(z & PZ & F & R & ->)].
  2: { (* the second loop of a clear *)
    assert (z = i) by auto. subst z. rewrite PZ in E. injection E as <- <-. exists []. split; [|unfold zlen; cbn; rewrite app_length; cbn; lia|].
    - left. split; [exact R|]. intros j. cbn. apply fine_set; [left; exact I|apply F].
    - intros b. rewrite HI. eapply atomic_ext; [apply (GA b)|]. intros j. cbn. unfold set_pc. destruct (Nat.eqb_spec j i); [subst j; now rewrite PZ|reflexivity]. }
  assert (GPI := GP i). destruct GPI as [OK|[PI|PI]].
  2: { (* a clear starts *)
    rewrite PI in E. injection E as <- <-. exists m. split; [|lia|].
    - left. split; [exact GR|]. intros j. cbn. apply fine_set; [right; right; reflexivity|intros; apply GP].
    - intros b. rewrite HI. eapply atomic_ext; [apply (GA b)|]. intros j. cbn. unfold set_pc. destruct (Nat.eqb_spec j i); [subst j; now rewrite PI|reflexivity]. }
  2: { (* its first loop *)
    rewrite PI in E. injection E as <- <-. exists []. split; [|unfold zlen; cbn; rewrite app_length; cbn; lia|].
    - right. exists i. cbn [tbl pcs]. split; [unfold set_pc; now rewrite Nat.eqb_refl|]. split; [intros j NJ; unfold set_pc; rewrite (proj2 (Nat.eqb_neq j i) NJ); apply GP|]. split; [|reflexivity].
      exact (clear_ok hash (tbl c) m GR).
    - intros b. rewrite HI. eapply at_effect; [apply (GA b)|cbv beta; rewrite PI; reflexivity| |apply upd_status; reflexivity]. cbn. reflexivity. }
  destruct (doing (pcs c i)) as [o|] eqn:D.
  2: { (* nothing to do *)
    assert (Q : t = tbl c /\ p = pcs c i). { clear - D OK E. destruct (pcs c i) eqn:P; cbn in D; try discriminate; try contradiction; cbn in E; injection E as <- <-; auto. }
    destruct Q as [-> ->]. exists m. split; [|lia|].
    - left. split; [exact GR|]. intros j. cbn. rewrite no_change. apply GP.
    - intros b. rewrite HI. eapply atomic_ext; [apply (GA b)|]. intros j. cbn. now rewrite no_change. }
  destruct (section_ok hash keq simple nothrow keq_spec (pcs c i) o (tbl c) m GR ltac:(lia) OK D) as (t' & p' & m' & E' & R' & L' & OK' & OUT).
  rewrite E in E'. injection E' as <- <-. exists m'. split; [|lia|].
  - left. split; [exact R'|]. intros j. cbn. apply fine_set; [left; exact OK'|intros; apply GP].
  - intros b. rewrite HI. cbn [tbl pcs].
    assert (CALLED : forall x, seen (pcs c i) && x = false -> status_of x (pcs c i) = Called o) by (clear - D; intros x X; destruct (pcs c i); cbn in D, X |- *; try discriminate; rewrite ?X; congruence).
    assert (EFF : forall a mm, legal o (dict_of m) a (dict_of mm) -> status_of (b i) p = Answered a -> atomic does nothing (history l) (dict_of mm) (fun j => status_of (b j) (set_pc (pcs c) i p j))).
    { intros a mm LG ST. eapply at_effect; [apply (GA (setb b i false))| |exact LG|].
      - cbv beta. unfold setb. rewrite Nat.eqb_refl. apply CALLED. apply andb_false_r.
      - intros j. rewrite set_setb. now apply upd_status. }
    destruct OUT as [(D' & -> & SN)|[(a & -> & LG)|(SN & -> & ->)]].
    + destruct (seen p && b i) eqn:SB.
      * apply andb_true_iff in SB. destruct SB as [SP BI]. destruct (SN SP) as [SO|(k & v & -> & AB)].
        -- eapply atomic_ext; [apply (GA b)|]. intros j. cbv beta. unfold set_pc. destruct (Nat.eqb_spec j i); [subst j|reflexivity].
           assert (X : forall q : pc, seen q = true -> status_of true q = Answered Refused) by (intros q; destruct q; cbn; congruence). rewrite BI, !X by assumption. reflexivity.
        -- apply (EFF Refused); [cbn; auto|]. rewrite BI. destruct p; cbn in SP |- *; congruence.
      * eapply atomic_ext; [apply (GA (setb b i false))|]. intros j. cbv beta. unfold set_pc, setb. destruct (Nat.eqb_spec j i); [subst j|reflexivity].
        rewrite CALLED by apply andb_false_r. clear - D' SB. destruct p; cbn in *; try discriminate; rewrite ?SB; congruence.
    + apply (EFF a); [exact LG|reflexivity].
    + eapply atomic_ext; [apply (GA (setb b i true))|]. intros j. cbv beta. unfold set_pc, setb. destruct (Nat.eqb_spec j i); [subst j|reflexivity].
      destruct (pcs c i); cbn in SN |- *; try discriminate; reflexivity.
Qed.
Lemma calm_good n l c : calm_run (start n) l c -> calls no_size l -> zlen l < 2 ^ 63 -> exists m, good l c m.
Proof.
  intros R. remember (start n) as c0 eqn:C0. induction R as [c|c l c1 e c2 R IH S]; intros LK LN.
  - subst c. exists []. split.
    + left. split; [apply rep_fresh|]. intros i. left. exact I. + cbn. lia.
    + intros b. apply at_start. reflexivity.
  - apply Forall_app in LK. destruct LK as [LK1 LK2]. inversion LK2 as [|? ? LE _]; subst. rewrite zlen_app in LN. change (zlen [e]) with 1 in LN.
    destruct (IH eq_refl LK1 ltac:(lia)) as (m & G). clear IH LK1 LK2.
    destruct e as [e|]; cbn [CuckooThreadsModel.calm_step] in S.
    + destruct G as [GH GL GA]. assert (LEN : zlen (l ++ [Some e]) = zlen l + 1) by (rewrite zlen_app; reflexivity). inversion S as [c i o PI|c i a PI|]; subst.
      * exists m. split; [apply holding_set; [exact GH|congruence|]|lia|].
        -- destruct o; cbn in LE; try contradiction; first [left; exact I|right; left; reflexivity].
        -- intros b. rewrite history_app. cbn [history flat_map app]. eapply at_call; [apply (GA b)| |].
           ++ cbv beta. rewrite PI. reflexivity.
           ++ cbn [pcs]. apply upd_status. reflexivity.
      * exists m. split; [apply holding_set; [exact GH|congruence|left; exact I]|lia|].
        intros b. rewrite history_app. cbn [history flat_map app]. eapply at_return; [apply (GA b)| |].
        -- cbv beta. rewrite PI. reflexivity.
        -- cbn [pcs]. apply upd_status. reflexivity.
    + destruct S as (i & t & p & E & -> & CALM). eapply good_inside; eauto. lia.
Qed.

(** Without clear() every run is of that kind. *)
Definition unlocked (p : pc) : Prop := match p with Zero | Wipe | Start Clear => True | _ => False end.
Lemma section_unlocked p t t' p' : section hash keq simple nothrow p t = Done t' p' -> unlocked p' -> unlocked p.
Proof.
  assert (RB : forall A B (x : res A) (f : table -> A -> res B) t' r, rbind x f = Done t' r -> exists t1 a, x = Done t1 a /\ f t1 a = Done t' r) by (intros A B x f t0 r; destruct x; cbn; try discriminate; eauto).
  assert (FI : forall k v st t t' p', finish hash k v st t = Done t' p' -> ~ unlocked p').
  { intros k v st t0 t1 q. unfold finish. destruct st as [i s|i s|]; [intros E; apply RB in E; destruct E as (? & ? & _ & E); injection E as <- <-; auto|destruct (cell t0 i s); [|discriminate]; intros E; injection E as <- <-; auto|discriminate]. }
  assert (PL : forall k v h b s t t' p', CuckooThreadsModel.place hash keq simple k v h b s t = Done t' p' -> ~ unlocked p').
  { intros k v h b s t0 t1 q. unfold CuckooThreadsModel.place. destruct (negb _); [discriminate|]. destruct (cell t0 b s); [discriminate|]. destruct (cuckoo_find _ _ _ _ _ _ _) as [[i s']|]; apply FI. }
  intros E U. destruct p as [|o|o h|k v h q last|k v h b ss acc|k v h to before|k v h|l s| | |a].
  - injection E as <- <-. exact U.
  - destruct o; cbn [section] in E; try exact I; try (injection E as <- <-; exact U). apply RB in E. destruct E as (? & ? & _ & E). injection E as <- <-. exact U.
  - exfalso. destruct o; cbn [section] in E; try discriminate; destruct (hp t =? h); try (injection E as <- <-; exact U); apply RB in E; destruct E as (t1 & ? & _ & E).
    + destruct (cuckoo_find _ _ _ _ _ _ _) as [[i s]|]; [destruct (cell t1 i s); [|discriminate]|]; injection E as <- <-; exact U.
    + destruct (try_both _ _ _ _ _ _ _); [exact (FI _ _ _ _ _ _ E U)|injection E as <- <-; exact U].
    + destruct (cuckoo_find _ _ _ _ _ _ _) as [[i s]|]; [apply RB in E; destruct E as (? & ? & _ & E)|]; injection E as <- <-; exact U.
  - exfalso. destruct q as [|x q]; cbn [section] in E; [injection E as <- <-; exact U|]. destruct (hp t =? h); [|injection E as <- <-; exact U]. apply RB in E; destruct E as (t1 & ? & _ & E).
    destruct (scan _ _ _ _ _ _ _) as [y|q2 last2|]; [|injection E as <- <-; exact U|discriminate]. unfold follow_start in E. destruct (decode _ _ _) as [cd ss]. destruct (cd =? 0); [injection E as <- <-; exact U|]. destruct (cd =? 1); [injection E as <- <-; exact U|discriminate].
  - exfalso. destruct ss as [|s ss]; cbn [section] in E; [discriminate|]. destruct (hp t =? h); [|injection E as <- <-; exact U]. apply RB in E; destruct E as (t1 & ? & _ & E).
    destruct (cell t1 b s) as [e|]; [|injection E as <- <-; exact U]. cbv zeta in E. destruct ss; [injection E as <- <-; exact U|]. destruct (_ || _); [injection E as <- <-; exact U|discriminate].
  - exfalso. destruct before as [|from before]; cbn [section] in E; (destruct (hp t =? h); [|injection E as <- <-; exact U]); apply RB in E; destruct E as (t1 & ? & _ & E).
    + destruct (cell t1 _ _); [injection E as <- <-; exact U|exact (PL _ _ _ _ _ _ _ _ E U)].
    + destruct (cell t1 (r_bucket to) (r_slot to)); [injection E as <- <-; exact U|]. destruct (cell t1 (r_bucket from) (r_slot from)) as [e|]; [|injection E as <- <-; exact U].
      destruct (_ =? _); [|injection E as <- <-; exact U]. cbv zeta in E. destruct before; [exact (PL _ _ _ _ _ _ _ _ E U)|injection E as <- <-; exact U].
  - exfalso. cbn [section] in E. destruct nothrow.
    + destruct (load_too_low t); [injection E as <- <-; exact U|]. destruct (negb _); [injection E as <- <-; exact U|]. apply RB in E; destruct E as (t1 & ? & _ & E). injection E as <- <-; exact U.
    + destruct (expand_simple _ _ _ _); try discriminate; injection E as <- <-; exact U.
  - exfalso. cbn [section] in E. destruct (l <? nlocks t); injection E as <- <-; exact U.
  - exact I.
  - exact I.
  - injection E as <- <-. exact U.
Qed.
Lemma run_calm n l c : run (start n) l c -> calls (fun o => o <> Clear) l -> calm_run (start n) l c /\ forall i, ~ unlocked (pcs c i).
Proof.
  intros R. remember (start n) as c0 eqn:C0. induction R as [c|c l c1 e c2 R IH S]; intros LK.
  - subst c. split; [constructor|]. intros i []. 
  - apply Forall_app in LK. destruct LK as [LK1 LK2]. inversion LK2 as [|? ? LE _]; subst. destruct (IH eq_refl LK1) as [C U]. split.
    + econstructor; [exact C|]. destruct e as [e|]; [exact S|]. inversion S as [| |c i t p E]; subst. exists i, t, p. split; [exact E|]. split; [reflexivity|]. intros j Z0. exfalso. apply (U j). rewrite Z0. exact I.
    + intros j. destruct S as [c i o PI|c i a PI|c i t p E]; cbn [pcs]; unfold set_pc; destruct (Nat.eqb j i); try apply U.
      * destruct o; cbn; auto. * auto. * intros X. apply (U i). eapply section_unlocked; eassumption.
Qed.

(** No step of a call fails. *)
Lemma calm_no_failure n l (c : @config K V) i : run (start n) l c -> calls (fun o => o <> Clear /\ o <> Size) l -> zlen l < 2 ^ 63 ->
  exists t p, section hash keq simple nothrow (pcs c i) (tbl c) = Done t p.
Proof.
  intros R LK LN. assert (LK1 : calls (fun o => o <> Clear) l) by (eapply Forall_impl; [|exact LK]; intros [[]|]; cbn; tauto).
  assert (LK2 : calls no_size l) by (eapply Forall_impl; [|exact LK]; intros [[? o|]|]; cbn; auto; intros [_ X]; destruct o; cbn; auto).
  destruct (run_calm n l c R LK1) as [C U]. destruct (calm_good n l c C LK2 LN) as (m & [GH GL _]). destruct GH as [[GR GP]|(z & PZ & _)]; [|exfalso; apply (U z); rewrite PZ; exact I].
  destruct (doing (pcs c i)) as [o|] eqn:D.
  - assert (OK : ok_pc (pcs c i)). { destruct (GP i) as [OK|[Q|Q]]; [exact OK|exfalso; apply (U i); rewrite Q; exact I..]. }
    destruct (section_ok hash keq simple nothrow keq_spec (pcs c i) o (tbl c) m GR ltac:(lia) OK D) as (t' & p' & _ & E & _). eauto.
  - destruct (GP i) as [OK|[Q|Q]]; [|exfalso; apply (U i); rewrite Q; exact I..]. clear - D OK. destruct (pcs c i); cbn in D, OK; try discriminate; try contradiction; cbn; eauto.
Qed.

(** Playing a schedule. *)
Inductive act : Type := Call (o : op) | Return | Go.
Definition do_act (i : nat) (a : act) (c : @config K V) : option (config * option event) :=
  match a with
  | Call o => match pcs c i with Idle => Some (mkC (tbl c) (set_pc (pcs c) i (Start o)), Some (Inv i o)) | _ => None end
  | Return => match pcs c i with Reply r => Some (mkC (tbl c) (set_pc (pcs c) i Idle), Some (Res i r)) | _ => None end
  | Go => match section hash keq simple nothrow (pcs c i) (tbl c) with Done t p => Some (mkC t (set_pc (pcs c) i p), None) | _ => None end
  end.
Fixpoint play (s : list (nat * act)) (c : config) (l : list (option event)) : option (config * list (option event)) :=
  match s with
  | [] => Some (c, rev' l)
  | (i, a) :: s' => match do_act i a c with Some (c1, e) => play s' c1 (e :: l) | None => None end
  end.
Lemma play_run c0 : forall s c l c' l', run c0 (rev l) c -> play s c l = Some (c', l') -> run c0 l' c'.
Proof.
  induction s as [|[i a] s IH]; intros c l c' l' R E; cbn [play] in E.
  - injection E as <- <-. unfold rev'. rewrite <- rev_alt. exact R.
  - destruct (do_act i a c) as [[c1 e]|] eqn:D; [|discriminate]. refine (IH _ _ _ _ _ E). cbn [rev]. econstructor; [exact R|].
    destruct a; cbn in D.
    + destruct (pcs c i) eqn:P; try discriminate. injection D as <- <-. now constructor.
    + destruct (pcs c i) eqn:P; try discriminate. injection D as <- <-. now constructor.
    + destruct (section hash keq simple nothrow (pcs c i) (tbl c)) eqn:P; try discriminate. injection D as <- <-. now constructor.
Qed.
End Proofs.
