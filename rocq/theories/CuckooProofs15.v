(** Runs with locks: what the threads can rely on. *)

From Coq Require Import ZArith List Bool Lia Arith.
From Verif Require Import Base CuckooModel CuckooRunModel CuckooThreadsModel CuckooProofs10 CuckooProofs12 CuckooLocksModel CuckooLocksSpec CuckooProofs13 CuckooProofs14.
From Verif Require Import ConcMapSpec CuckooSpec.
Import ListNotations.
Open Scope Z_scope.

Section Proofs.
Context {K V : Type} (hash : K -> Z) (keq : K -> K -> bool) (simple nothrow : bool).
Context (keq_spec : forall a b, keq a b = true <-> a = b).
Notation pc := (@pc K V). Notation table := (@table K V).
Notation op := (@CuckooSpec.op K V). Notation ans := (@CuckooSpec.ans K V). Notation event := (@ConcMapSpec.event op ans).
Notation section := (section hash keq simple nothrow). Notation needs := (needs hash).
Notation fstep := (fstep hash keq simple nothrow). Notation frun := (frun hash keq simple nothrow).
Notation run := (run hash keq simple nothrow).

Lemma outside_under w w' (t t' : table) : same_outside w t t' -> (forall l, In l w -> ~ In l w') -> same_under w' t t'.
Proof.
  intros [S1 S2 S3 S4 S5 S6 S7] D. split; try congruence.
  - intros i s I. symmetry. apply S4. intros J. exact (D _ J I).
  - intros a b i s A B I. destruct S5 as [S5|S5]; [|congruence]. rewrite S5, A in B. injection B as ->. reflexivity.
  - intros l I. symmetry. apply S6. intros J. exact (D _ J I).
  - intros l I. symmetry. apply S7. intros J. exact (D _ J I).
Qed.
(** Functions within disjoint sets of locks commute. *)
Lemma within_commute {A B} w1 w2 (f : table -> res A) (g : table -> res B) t t1 t12 t2 t21 a a' b b' :
  within w1 f -> within w2 g -> (forall l, In l w1 -> ~ In l w2) ->
  f t = Done t1 a -> g t1 = Done t12 b -> g t = Done t2 b' -> f t2 = Done t21 a' ->
  a = a' /\ b = b' /\ hp t12 = hp t21 /\ (forall i s, cell t12 i s = cell t21 i s) /\ (forall l, counter t12 l = counter t21 l) /\ (forall l, migrated t12 l = migrated t21 l).
Proof.
  intros [F1 F2] [G1 G2] D E1 E12 E2 E21. assert (D' : forall l, In l w2 -> ~ In l w1) by (intros l I J; exact (D _ J I)).
  pose proof (F1 _ _ _ E1) as O1. pose proof (G1 _ _ _ E12) as O12. pose proof (G1 _ _ _ E2) as O2. pose proof (F1 _ _ _ E21) as O21.
  destruct (F2 _ _ _ _ _ _ (outside_under _ w1 _ _ O2 D') E1 E21) as [-> SA]. destruct (G2 _ _ _ _ _ _ (outside_under _ w2 _ _ O1 D) E2 E12) as [-> SB].
  split; [reflexivity|]. split; [reflexivity|]. split; [rewrite (so_hp _ _ _ O12), (so_hp _ _ _ O1), (so_hp _ _ _ O21), (so_hp _ _ _ O2); reflexivity|].
  assert (DEC : forall l w, {In l w} + {~ In l w}) by (intros; apply in_dec, Z.eq_dec).
  split; [|split].
  - intros i s. destruct (DEC (lock_ind i) w1) as [I1|N1].
    + rewrite (so_cell _ _ _ O12) by now apply D. exact (su_cell _ _ _ SA i s I1).
    + rewrite (so_cell _ _ _ O21) by exact N1. destruct (DEC (lock_ind i) w2) as [I2|N2]; [symmetry; exact (su_cell _ _ _ SB i s I2)|].
      rewrite (so_cell _ _ _ O12), (so_cell _ _ _ O1), (so_cell _ _ _ O2) by assumption. reflexivity.
  - intros l. destruct (DEC l w1) as [I1|N1].
    + rewrite (so_counter _ _ _ O12) by now apply D. exact (su_counter _ _ _ SA l I1).
    + rewrite (so_counter _ _ _ O21) by exact N1. destruct (DEC l w2) as [I2|N2]; [symmetry; exact (su_counter _ _ _ SB l I2)|].
      rewrite (so_counter _ _ _ O12), (so_counter _ _ _ O1), (so_counter _ _ _ O2) by assumption. reflexivity.
  - intros l. destruct (DEC l w1) as [I1|N1].
    + rewrite (so_migrated _ _ _ O12) by now apply D. exact (su_migrated _ _ _ SA l I1).
    + rewrite (so_migrated _ _ _ O21) by exact N1. destruct (DEC l w2) as [I2|N2]; [symmetry; exact (su_migrated _ _ _ SB l I2)|].
      rewrite (so_migrated _ _ _ O12), (so_migrated _ _ _ O1), (so_migrated _ _ _ O2) by assumption. reflexivity.
Qed.

Lemma no_size_calls (l : list (option event)) : calls (fun o => o <> Clear /\ o <> Size) l -> calls no_size l /\ calls (fun o => o <> Clear) l.
Proof. intros LK. split; (eapply Forall_impl; [|exact LK]); intros [[? o|]|]; cbn; auto; [intros [_ X]; destruct o; cbn; auto|tauto]. Qed.
Lemma reachable_ok n (l : list (option event)) c i : run (start n) l c -> calls (fun o => o <> Clear /\ o <> Size) l -> Z.of_nat (length l) < 2 ^ 63 -> ok_pc hash (pcs c i).
Proof.
  intros R LK LN. destruct (no_size_calls l LK) as [LS LC]. destruct (run_calm hash keq simple nothrow n l c R LC) as [C U].
  destruct (calm_good hash keq simple nothrow keq_spec n l c C LS LN) as (m & [GH _ _]). specialize (U i). destruct GH as [[_ F]|(z & PZ & _)].
  - destruct (F i) as [O|[E|E]]; [exact O|exfalso; apply U; rewrite E; cbn; auto..].
  - exfalso. destruct (run_calm hash keq simple nothrow n l c R LC) as [_ U']. apply (U' z). rewrite PZ. cbn. auto.
Qed.
Lemma range_run n (l : list (option event)) c : frun (fstart n) l c -> forall x, owner c x <> None -> in_range x.
Proof.
  intros R. pose proof (fun l1 c1 => tight_run (K:=K) (V:=V) hash keq simple nothrow n l1 c1) as T. remember (fstart n) as c0 eqn:E0. induction R as [c|c l c1 i e c2 R IH ST].
  - subst c. intros x X. now destruct X.
  - specialize (IH E0 T). subst c. specialize (T _ _ R).
    assert (NEW : forall held todo y, phases c1 i = Taking held (y :: todo) -> forall x, set_owner (owner c1) y (Some i) x <> None -> in_range x).
    { intros held todo y P x. unfold set_owner. destruct (Z.eqb_spec x y) as [->|]; [|apply IH]. intros _. destruct (t_take hash c1 T _ _ _ P) as (h & N & _). apply needs_orderly in N. apply N. apply in_app_iff. right. now left. }
    inversion ST; subst; cbn; try exact IH; try (now eapply NEW; eassumption).
    intros x. unfold set_owner. destruct (x =? l0); [congruence|apply IH].
Qed.
(** Nobody else touches what lies under a lock a thread has. *)
Lemma private_step n (l : list (option event)) c i j e c' x : frun (fstart n) l c -> calls (fun o => o <> Clear /\ o <> Size) l -> Z.of_nat (length l) < 2 ^ 63 ->
  fstep j c e c' -> j <> i -> In x (has_locks c i) -> same_under [x] (tbl (base c)) (tbl (base c')).
Proof.
  intros R LK LN ST N I. pose proof (tight_run hash keq simple nothrow _ _ _ R) as T. destruct (refines hash keq simple nothrow n l c R) as (l' & R' & _ & L' & C').
  assert (OK : ok_pc hash (pcs (base c) j)) by (apply (reachable_ok n l' _ j R'); [now apply C'|lia]).
  assert (SAME : forall t : table, same_under [x] t t) by (intros t; split; auto; intros a b k s -> [= ->]; reflexivity).
  inversion ST; subst; cbn; try apply SAME.
  - (* plain *) destruct (pcs (base c) j) as [|o|o h|k v h [|y q] last|k v h b [|s ss] acc|k v h to [|from before]|k v h|y s| | |a] eqn:Q;
      try match goal with Hn : needs _ = None |- _ => discriminate Hn end; try (now destruct OK); try congruence.
    + destruct o; try match goal with Hn : needs _ = None |- _ => discriminate Hn end; match goal with Hs : section _ _ = Done _ _ |- _ => injection Hs as <- _ end; apply SAME.
    + destruct o; try match goal with Hn : needs _ = None |- _ => discriminate Hn end; destruct OK as [_ []].
    + match goal with Hs : section _ _ = Done _ _ |- _ => injection Hs as <- _ end; apply SAME.
    + destruct before; match goal with Hn : needs _ = None |- _ => discriminate Hn end.
  - (* body *) match goal with Hp : phases c j = Taking _ [], Hs : section _ _ = Done _ _ |- _ => rename Hp into P; rename Hs into E end.
    destruct (t_take hash c T _ _ _ P) as (h & NJ & _). rewrite app_nil_r in NJ.
    assert (OX : owner c x = Some i) by now apply (t_own hash c T).
    assert (NX : ~ In x held) by (intros J; assert (owner c x = Some j) by (apply (t_own hash c T); unfold has_locks; now rewrite P); congruence).
    destruct h as [h|].
    + apply (outside_under held); [exact (proj1 (section_within hash keq simple nothrow _ _ _ NJ OK) _ _ _ E)|]. intros y Y [<-|[]]. contradiction.
    + exfalso. apply NX. apply needs_every in NJ. subst held. apply lock_every_in. apply (range_run _ _ _ R). congruence.
Qed.

(** Some thread in a call can always make a step. *)
Lemma progress n (l : list (option event)) c i : frun (fstart n) l c -> calls (fun o => o <> Clear /\ o <> Size) l -> Z.of_nat (length l) < 2 ^ 63 -> busy c i ->
  exists j e c', busy c j /\ fstep j c e c'.
Proof.
  intros R LK LN B. pose proof (tight_run hash keq simple nothrow _ _ _ R) as T. destruct (refines hash keq simple nothrow n l c R) as (l' & R' & _ & L' & C').
  assert (SEC : forall j, exists t p, section (pcs (base c) j) (tbl (base c)) = Done t p) by (intros j; apply (calm_no_failure hash keq simple nothrow keq_spec n l' _ j R'); [now apply C'|unfold zlen; lia]).
  destruct (waits_dec c i) as [(x & W)|NW].
  - destruct (unblock hash c T (Z.to_nat (kMaxNumLocks - x)) i x W ltac:(lia)) as (j & x' & OJ & _ & NW).
    assert (BJ : busy c j). { left. intros PJ. apply (t_own hash c T) in OJ. unfold has_locks in OJ. rewrite PJ in OJ. destruct OJ. }
    destruct (can_step hash keq simple nothrow c j T BJ NW (SEC j)) as (e & c' & ST). eauto.
  - destruct (can_step hash keq simple nothrow c i T B NW (SEC i)) as (e & c' & ST). eauto.
Qed.

(** *** Playing a schedule *)
Definition fdo (i : nat) (a : act) (c : @fine K V) : option (fine * option event) :=
  let p := pcs (base c) i in
  let to f := set_phase (phases c) i f in
  match a, phases c i with
  | Call o, Out => match p with Idle => Some (mkF (mkC (tbl (base c)) (set_pc (pcs (base c)) i (Start o))) (phases c) (owner c), Some (Inv i o)) | _ => None end
  | Return, Out => match p with Reply r => Some (mkF (mkC (tbl (base c)) (set_pc (pcs (base c)) i Idle)) (phases c) (owner c), Some (Res i r)) | _ => None end
  | Go, Out =>
      match p with
      | Idle | Reply _ => None
      | _ =>
          match needs p with
          | Some (h, ls) => Some (mkF (base c) (to (Taking [] ls)) (owner c), None)
          | None => match section p (tbl (base c)) with Done t p' => Some (mkF (mkC t (set_pc (pcs (base c)) i p')) (phases c) (owner c), None) | _ => None end
          end
      end
  | Go, Taking held (l :: todo) =>
      match owner c l with
      | Some _ => None
      | None =>
          match held, needs p with
          | [], Some (Some h, ls) => Some (mkF (base c) (to (Checking l todo)) (set_owner (owner c) l (Some i)), None)
          | [], Some (None, ls) => Some (mkF (base c) (to (Taking ([] ++ [l]) todo)) (set_owner (owner c) l (Some i)), None)
          | [], None => None
          | x :: y, _ => Some (mkF (base c) (to (Taking ((x :: y) ++ [l]) todo)) (set_owner (owner c) l (Some i)), None)
          end
      end
  | Go, Taking held [] => match section p (tbl (base c)) with Done t p' => Some (mkF (mkC t (set_pc (pcs (base c)) i p')) (to (Freeing held)) (owner c), None) | _ => None end
  | Go, Checking l todo =>
      match needs p with
      | Some (Some h, ls) =>
          if hp (tbl (base c)) =? h then Some (mkF (base c) (to (Taking [l] todo)) (owner c), None)
          else Some (mkF (mkC (tbl (base c)) (set_pc (pcs (base c)) i (restart p))) (to (Freeing [l])) (owner c), None)
      | _ => None
      end
  | Go, Freeing [] => Some (mkF (base c) (to Out) (owner c), None)
  | Go, Freeing (l :: held) => Some (mkF (base c) (to (Freeing (drop l (l :: held)))) (set_owner (owner c) l None), None)
  | _, _ => None
  end.
Lemma fdo_step i a c c' e : fdo i a c = Some (c', e) -> fstep i c e c'.
Proof.
  unfold fdo. destruct a.
  - destruct (phases c i) eqn:P; try discriminate. destruct (pcs (base c) i) eqn:Q; try discriminate. intros [= <- <-]. now apply f_call.
  - destruct (phases c i) eqn:P; try discriminate. destruct (pcs (base c) i) eqn:Q; try discriminate. intros [= <- <-]. now apply f_return.
  - destruct (phases c i) as [|held [|l todo]|l todo|[|l held]] eqn:P.
    + intros E. destruct (needs (pcs (base c) i)) as [[h ls]|] eqn:N.
      * assert (X : Some (mkF (base c) (set_phase (phases c) i (Taking [] ls)) (owner c), @None event) = Some (c', e)) by (destruct (pcs (base c) i); try discriminate; exact E).
        injection X as <- <-. now apply f_begin with h.
      * assert (NI : pcs (base c) i <> Idle) by (intros Q; rewrite Q in E; discriminate). assert (NR : forall r, pcs (base c) i <> Reply r) by (intros r Q; rewrite Q in E; discriminate).
        assert (X : match section (pcs (base c) i) (tbl (base c)) with Done t p' => Some (mkF (mkC t (set_pc (pcs (base c)) i p')) (phases c) (owner c), @None event) | _ => None end = Some (c', e))
          by (destruct (pcs (base c) i); try exact E; discriminate).
        destruct (section (pcs (base c) i) (tbl (base c))) as [t p'| | |] eqn:S; try discriminate. injection X as <- <-. now apply f_plain.
    + destruct (section (pcs (base c) i) (tbl (base c))) as [t p'| | |] eqn:S; try discriminate. intros [= <- <-]. now apply f_body.
    + destruct (owner c l) eqn:O; [discriminate|]. destruct held as [|x y].
      * destruct (needs (pcs (base c) i)) as [[[h|] ls]|] eqn:N; try discriminate; intros [= <- <-]; [now apply f_first with h ls|]. apply (f_next hash keq simple nothrow i c [] l todo); eauto.
      * intros [= <- <-]. apply (f_next hash keq simple nothrow i c (x :: y) l todo); auto. left. discriminate.
    + destruct (needs (pcs (base c) i)) as [[[h|] ls]|] eqn:N; try discriminate. destruct (Z.eqb_spec (hp (tbl (base c))) h); intros [= <- <-]; [now apply f_same with h ls|now apply f_changed with h ls todo].
    + intros [= <- <-]. now apply f_out.
    + intros [= <- <-]. refine (f_free hash keq simple nothrow i c (l :: held) l P _). now left.
Qed.
Fixpoint fplay (s : list (nat * act)) (c : @fine K V) (l : list (option event)) : option (fine * list (option event)) :=
  match s with
  | [] => Some (c, rev' l)
  | (i, a) :: s' => match fdo i a c with Some (c1, e) => fplay s' c1 (e :: l) | None => None end
  end.
Lemma fplay_run c0 : forall s c l c' l', frun c0 (rev l) c -> fplay s c l = Some (c', l') -> frun c0 l' c'.
Proof.
  induction s as [|[i a] s IH]; intros c l c' l' R E; cbn [fplay] in E.
  - injection E as <- <-. unfold rev'. rewrite <- rev_alt. exact R.
  - destruct (fdo i a c) as [[c1 e]|] eqn:D; [|discriminate]. refine (IH _ _ _ _ _ E). cbn [rev]. apply fdo_step in D. exact (frun_step _ _ _ _ _ _ _ _ _ _ R D).
Qed.
End Proofs.
