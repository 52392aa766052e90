(** Fresh loads: every step is determined; what a call has seen. *)

From Coq Require Import ZArith List Bool Lia Arith.
From Verif Require Import Base Bits FreeListModel FreeListSpec FreeListProofs FreeListProofs2 FreeListProofs3.
Import ListNotations.
Open Scope Z_scope.

Definition next_step (m : mem) (p : pc) : option (mem * pc * label) :=
  match p with
  | Idle => None
  | A0 n => let m' := set_refs m n (uwrap 32 (refs m n + SHOULD_BE_ON_FREELIST)) in
            Some (if refs m n =? 0 then (m', A1 n KAdd, Tau) else (m', Idle, Added))
  | A1 n k => Some (m, A2 n (head m) k, Tau)
  | A2 n hd k => Some (set_next m n hd, A3 n hd k, Tau)
  | A3 n hd k => Some (set_refs m n 1, A4 n hd k, Tau)
  | A4 n hd k => Some (if eqo (head m) hd then (set_head m (Some n), fst (resume k), snd (resume k)) else (m, A5 n (head m) k, Tau))
  | A5 n hd k => let m' := set_refs m n (uwrap 32 (refs m n + (SHOULD_BE_ON_FREELIST - 1))) in
                 Some (if refs m n =? 1 then (m', A2 n hd k, Tau) else (m', fst (resume k), snd (resume k)))
  | G1 => Some (m, fst (resume (KGet (head m))), snd (resume (KGet (head m))))
  | G2 h => Some (m, G3 h (refs m h), Tau)
  | G3 h r => Some (if refs_of r =? 0 then (m, G1, Tau) else if refs m h =? r then (set_refs m h (uwrap 32 (r + 1)), G4 h, Tau) else (m, G1, Tau))
  | G4 h => Some (m, G5 h (next m h), Tau)
  | G5 h nx => Some (if eqo (head m) (Some h) then (set_head m nx, G6 h, Tau) else (m, G7 h (head m), Tau))
  | G6 h => Some (set_refs m h (uwrap 32 (refs m h - 2)), Idle, Got (Some h))
  | G7 h hd => let m' := set_refs m h (uwrap 32 (refs m h - 1)) in
               Some (if refs m h =? SHOULD_BE_ON_FREELIST + 1 then (m', A1 h (KGet hd), Tau) else (m', fst (resume (KGet hd)), snd (resume (KGet hd))))
  end.
Lemma next_step_sound stale m p r : next_step m p = Some r -> tstep stale m p (fst (fst r)) (snd (fst r)) (snd r).
Proof.
  assert (LD : forall A (x : A), loads stale x x) by (intros; right; reflexivity).
  destruct p; cbn [next_step]; intros E; try discriminate; injection E as <-; try (cbn [fst snd]; constructor; auto; fail).
  - destruct (Z.eqb_spec (refs m n) 0); constructor; assumption.
  - pose proof (eqo_spec (head m) hd). destruct (eqo _ _); constructor; auto.
  - destruct (Z.eqb_spec (refs m n) 1); constructor; assumption.
  - destruct (Z.eqb_spec (refs_of r0) 0) as [Z0|Z0]; [constructor; exact Z0|]. destruct (Z.eqb_spec (refs m h) r0) as [Z1|Z1]; constructor; assumption.
  - pose proof (eqo_spec (head m) (Some h)). destruct (eqo _ _); constructor; auto.
  - change 2147483649 with (SHOULD_BE_ON_FREELIST + 1). destruct (Z.eqb_spec (refs m h) (SHOULD_BE_ON_FREELIST + 1)); cbn [fst snd]; [apply t_last|apply (t_unref stale m h hd)]; assumption.
Qed.
Lemma next_step_complete m p m' p' l : tstep false m p m' p' l -> next_step m p = Some (m', p', l).
Proof.
  assert (LD : forall A (x v : A), loads false x v -> v = x) by (intros A x v [H|H]; [discriminate|exact H]).
  intros ST. destruct ST; cbn [next_step]; repeat match goal with H : loads false _ _ |- _ => apply LD in H; subst end; try reflexivity.
  - rewrite H. reflexivity.
  - apply Z.eqb_neq in H. now rewrite H.
  - rewrite H, eqo_refl. reflexivity.
  - rewrite (eqo_ne _ _ H). reflexivity.
  - rewrite H. reflexivity.
  - apply Z.eqb_neq in H. now rewrite H.
  - rewrite H. reflexivity.
  - apply Z.eqb_neq in H. rewrite H. apply Z.eqb_neq in H0. now rewrite H0.
  - subst r. rewrite Z.eqb_refl. apply Z.eqb_neq in H. now rewrite H.
  - rewrite H, eqo_refl. reflexivity.
  - rewrite (eqo_ne _ _ H). reflexivity.
  - rewrite H, Z.eqb_refl. reflexivity.
  - apply Z.eqb_neq in H. now rewrite H.
Qed.
Lemma step_det i l l' a b b' : step false i l a b -> step false i l' a b' -> l = l' /\ b = b'.
Proof.
  intros S1 S2. destruct S1 as [m ts c p m' p' l E ST]. inversion S2; subst. assert (p0 = p) by congruence. subst p0.
  apply next_step_complete in ST. match goal with H : tstep false m p _ _ _ |- _ => apply next_step_complete in H; rewrite ST in H; injection H as -> -> -> end. split; reflexivity.
Qed.
Lemma alone_det i a l b : alone false i a l b -> forall l' b', alone false i a l' b' -> l = l' /\ b = b'.
Proof.
  induction 1 as [l a b S0 N|l a b c S0 A IH]; intros l' b' A'; inversion A'; subst.
  - exact (step_det i l l' a b b' S0 H).
  - destruct (step_det _ _ _ _ _ _ S0 H) as [-> _]. congruence.
  - destruct (step_det _ _ _ _ _ _ S0 H) as [<- _]. congruence.
  - destruct (step_det _ _ _ _ _ _ S0 H) as [_ <-]. apply IH. assumption.
Qed.

(** ** Concrete runs *)
Inductive cmd : Type := Run (i : nat) | Add (i : nat) (n : node) | Get (i : nat).
Definition one (s : sys) (c : cmd) : option sys :=
  match c with
  | Run i => match nth_error (threads s) i with
             | Some p => match next_step (memory s) p with Some (m', p', l) => Some (mkSys m' (upd (threads s) i p') (take (client s) l)) | None => None end
             | None => None
             end
  | Add i n => match nth_error (threads s) i with
               | Some Idle => if client s n then Some (mkSys (memory s) (upd (threads s) i (A0 n)) (fupd (client s) n false)) else None
               | _ => None
               end
  | Get i => match nth_error (threads s) i with Some Idle => Some (mkSys (memory s) (upd (threads s) i G1) (client s)) | _ => None end
  end.
Fixpoint run (s : sys) (cs : list cmd) : option sys := match cs with [] => Some s | c :: r => match one s c with Some s' => run s' r | None => None end end.
Lemma run_reach stale T cs s s' : reach stale T s -> run s cs = Some s' -> reach stale T s'.
Proof.
  revert s. induction cs as [|c r IH]; intros s R E; cbn in E; [now injection E as <-|]. destruct (one s c) as [s1|] eqn:O1; [|discriminate]. apply (IH s1); [|exact E].
  destruct s as [m ts cl]. destruct c as [i|i n|i]; cbn [one threads memory client] in O1; destruct (nth_error ts i) as [p|] eqn:EP; try discriminate.
  - destruct (next_step m p) as [[[m' p'] l]|] eqn:NS; [|discriminate]. injection O1 as <-. eapply r_step; [exact R|]. econstructor; [exact EP|]. exact (next_step_sound stale m p _ NS).
  - destruct p; try discriminate. destruct (cl n) eqn:CN; [|discriminate]. injection O1 as <-. eapply r_call; [exact R|]. econstructor; assumption.
  - destruct p; try discriminate. injection O1 as <-. eapply r_call; [exact R|]. econstructor; assumption.
Qed.

(** ** A call remembers null only if the list was empty *)
Definition recalls (p : pc) : Prop :=
  match p with A1 _ k | A2 _ _ k | A3 _ _ k | A4 _ _ k | A5 _ _ k => k = KGet None | G7 _ v => v = None | _ => False end.
Lemma recalls_step m p m' p' l : tstep false m p m' p' l -> recalls p' -> recalls p \/ head m = None.
Proof.
  intros ST. destruct ST; cbn [recalls]; intros RC; auto; try contradiction; try (destruct k as [|[|]]; cbn in RC; try contradiction; auto; fail).
  - discriminate RC.
  - destruct v; cbn in RC; contradiction.
  - destruct H0 as [H0|H0]; [discriminate|]. right. congruence.
  - injection RC as ->. auto.
  - destruct hd; cbn in RC; contradiction.
Qed.
Lemma none_step m p m' p' : tstep false m p m' p' (Got None) -> recalls p \/ head m = None.
Proof.
  intros ST. inversion ST; subst; cbn [recalls].
  - left. destruct k as [|[|]]; cbn in *; try discriminate. reflexivity.
  - left. destruct k as [|[|]]; cbn in *; try discriminate. reflexivity.
  - right. match goal with H : loads _ _ _ |- _ => destruct H as [H|H]; [discriminate|] end. subst v. match goal with |- ?x = None => destruct x; [discriminate|reflexivity] end.
  - left. destruct hd; [discriminate|reflexivity].
Qed.
Lemma recalls_during i a l b : during false a l b -> (forall p, nth_error (threads a) i = Some p -> ~ recalls p) ->
  forall p, nth_error (threads b) i = Some p -> recalls p -> exists s, In s l /\ head (memory s) = None.
Proof.
  induction 1 as [a|a b l c D IH M]; intros A0 p E RC; [elim (A0 p E RC)|].
  assert (OLD : forall q, nth_error (threads b) i = Some q -> recalls q -> exists s, In s (l ++ [b]) /\ head (memory s) = None).
  { intros q EQ RQ. destruct (IH A0 q EQ RQ) as (s & IS & HS). exists s. split; [apply in_or_app; left; exact IS|exact HS]. }
  destruct M as [j lb b c S0|j b c C].
  - destruct S0 as [m ts cl q m' q' lb EQ ST]. cbn [threads memory] in *. rewrite (nth_upd _ _ _ _ _ EQ) in E. destruct (Nat.eqb_spec i j) as [->|NJ]; [|exact (OLD p E RC)].
    injection E as <-. destruct (recalls_step _ _ _ _ _ ST RC) as [RQ|HN]; [exact (OLD q EQ RQ)|]. eexists. split; [apply in_or_app; right; left; reflexivity|exact HN].
  - destruct C as [m ts cl n EQ CN|m ts cl EQ]; cbn [threads] in *; rewrite (nth_upd _ _ _ _ _ EQ) in E; (destruct (Nat.eqb_spec i j) as [->|NJ]; [injection E as <-; destruct RC|exact (OLD p E RC)]).
Qed.
