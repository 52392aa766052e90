(** C118: nextGaussian. *)

From Coq Require Import ZArith List Bool Lia Floats.SpecFloat.
From Verif Require Import Base Bits RandomSpec RandomModel RandomProofs RandomProps RandomGaussModel RandomGaussSpec RandomGaussProofs.
Import ListNotations.
Open Scope Z_scope.

Section Props.
(** sqrt(-2 * log(s) / s), as libm computes it: arbitrary *)
Variable scale : spec_float -> spec_float.
Notation nextGaussian := (nextGaussian scale). Notation invoke := (invoke scale). Notation invoke_all := (invoke_all scale).

(** From every state of the generator, a candidate is accepted at last. *)
Theorem C118_accepts x : 0 <= x < 2 ^ 48 -> exists i, first_inside x i.
Proof. exact (has_first x). Qed.
(** Without a number left over, nextGaussian() returns the first coordinate of
    the first candidate inside the circle, scaled, and keeps the second one,
    which the next call returns without drawing anything. *)
Theorem C118_pair x o i : first_inside x i ->
  exists g, (forall fuel, (i < fuel)%nat -> nextGaussian fuel (mkG x false o) = Ok (SFmul 53 1024 (cand1 x i) (scale (dist2 x i)), g)) /\ seed_ g = state_after (4 * i + 4) x /\
    forall fuel, exists o', nextGaussian fuel g = Ok (SFmul 53 1024 (cand2 x i) (scale (dist2 x i)), mkG (state_after (4 * i + 4) x) false o').
Proof.
  intros F. eexists. split; [|split].
  - intros fuel L. unfold RandomGaussModel.nextGaussian. cbn [have seed_]. rewrite (polar_ok i x fuel F L). cbn [bind]. reflexivity.
  - reflexivity.
  - intros fuel. eexists. unfold RandomGaussModel.nextGaussian. cbn [have number seed_]. reflexivity.
Qed.

(** The second number stays, whatever other calls come in between, unless
    the seed is set. *)
Definition keeps (c : call) : Prop := match c with Plain (SetSeed _) | NextGaussian => False | _ => True end.
Theorem C118_kept x o i fuel a g1 cs l g2 : first_inside x i -> (i < fuel)%nat -> nextGaussian fuel (mkG x false o) = Ok (a, g1) -> Forall keeps cs -> invoke_all fuel g1 cs = Ok (l, g2) ->
  exists g3, nextGaussian fuel g2 = Ok (SFmul 53 1024 (cand2 x i) (scale (dist2 x i)), g3) /\ seed_ g3 = seed_ g2.
Proof.
  intros F L E K R. assert (H : have g1 = true /\ number g1 = Some (SFmul 53 1024 (cand2 x i) (scale (dist2 x i)))).
  { unfold RandomGaussModel.nextGaussian in E. cbn [have seed_] in E. rewrite (polar_ok i x fuel F L) in E. cbn [bind] in E. injection E as _ <-. split; reflexivity. }
  clear E. assert (H2 : have g2 = true /\ number g2 = Some (SFmul 53 1024 (cand2 x i) (scale (dist2 x i)))).
  { revert g1 l g2 H R. induction cs as [|c cs IH]; intros g1 l g2 H R; cbn [RandomGaussModel.invoke_all] in R; [injection R as _ <-; exact H|].
    inversion K as [|? ? K1 K2]; subst. destruct c as [c|]; [|contradiction]. cbn [RandomGaussModel.invoke] in R. destruct (rinvoke HW true fuel (seed_ g1) c) as [[b s]| | |]; try discriminate. cbn [bind] in R.
    destruct (invoke_all fuel _ cs) as [[l2 g4]| | |] eqn:R2; try discriminate. cbn [bind] in R. injection R as _ <-. apply (IH K2 _ _ _) in R2; [exact R2|]. cbn [have number]. destruct c; try exact H. contradiction. }
  destruct H2 as [H2 H3]. eexists. unfold RandomGaussModel.nextGaussian. rewrite H2, H3. split; reflexivity.
Qed.

Definition sound (g : generator) : Prop := state_ok (seed_ g) /\ (have g = true -> number g <> None).
Definition call_fine (c : call) : Prop := match c with Plain c => rcall_ok c | NextGaussian => True end.
Lemma call_sound g c : sound g -> call_fine c -> exists n0 a g', sound g' /\ forall fuel, (n0 <= fuel)%nat -> invoke fuel g c = Ok (a, g').
Proof.
  intros (S1 & S2) C. destruct c as [c|].
  - destruct (call_ok (seed_ g) c S1 C) as (n0 & a & x' & _ & X' & F). exists n0. eexists _, _. split; [|intros fuel L; cbn [RandomGaussModel.invoke]; rewrite F by exact L; cbn [bind]; reflexivity].
    split; [exact X'|]. cbn [have number]. destruct c; try exact S2. discriminate.
  - destruct (have g) eqn:H.
    + destruct (number g) as [x|] eqn:N; [|now destruct (S2 eq_refl)]. exists 0%nat. eexists _, _. split; [|intros fuel _; cbn [RandomGaussModel.invoke]; unfold RandomGaussModel.nextGaussian; rewrite H, N; cbn [bind]; reflexivity].
      split; [exact S1|discriminate].
    + destruct (has_first (seed_ g) S1) as (i & F). exists (S i). eexists _, _. split; [|intros fuel L; cbn [RandomGaussModel.invoke]; unfold RandomGaussModel.nextGaussian; rewrite H, (polar_ok i _ fuel F) by lia; cbn [bind]; reflexivity].
      split; [cbn [seed_]; now apply after_ok|discriminate].
Qed.
(** Every sequence of calls on a new generator, nextGaussian() among them,
    ends; the field that the constructor leaves uninitialised is never read. *)
Theorem C118_total seed cs : Forall call_fine cs -> exists fuel0 answers final, forall fuel, (fuel0 <= fuel)%nat -> invoke_all fuel (new_generator seed) cs = Ok (answers, final).
Proof.
  assert (S0 : sound (new_generator seed)) by (split; [cbn [seed_ new_generator]; rewrite scramble_ok; apply Z.mod_pos_bound; lia|discriminate]).
  revert S0. generalize (new_generator seed). induction cs as [|c cs IH]; intros g S F.
  - exists 0%nat. eexists _, _. reflexivity.
  - inversion F as [|? ? F1 F2]; subst. destruct (call_sound g c S F1) as (n1 & a & g1 & S1 & E1). destruct (IH g1 S1 F2) as (n2 & l & g2 & E2).
    exists (Nat.max n1 n2). eexists _, _. intros fuel L. cbn [RandomGaussModel.invoke_all]. rewrite E1 by lia. cbn [bind]. rewrite E2 by lia. cbn [bind]. reflexivity.
Qed.

(** After setSeed(seed) a generator answers as a new one with that seed,
    whatever was called before: no number is left over. *)
Definition alike (g h : generator) : Prop := seed_ g = seed_ h /\ have g = have h /\ (have g = true -> number g = number h).
Lemma alike_call fuel g h c : alike g h ->
  match invoke fuel g c, invoke fuel h c with
  | Ok (a, g'), Ok (b, h') => a = b /\ alike g' h'
  | Ok _, _ | _, Ok _ => False
  | x, y => x = y
  end.
Proof.
  intros (A & B & C). destruct c as [c|]; cbn [RandomGaussModel.invoke].
  - rewrite A. destruct (rinvoke HW true fuel (seed_ h) c) as [[a s]| | |]; cbn [bind]; try reflexivity. split; [reflexivity|]. split; [reflexivity|]. cbn [have number]. destruct c; auto. split; [reflexivity|discriminate].
  - unfold RandomGaussModel.nextGaussian. rewrite <- B. destruct (have g).
    + rewrite <- (C eq_refl). destruct (number g); cbn [bind]; [|reflexivity]. split; [reflexivity|]. split; [exact A|]. split; [reflexivity|discriminate].
    + rewrite A. destruct (polar fuel (seed_ h)) as [[[[v1 v2] s] x]| | |]; cbn [bind]; try reflexivity. split; [reflexivity|]. split; [reflexivity|]. split; reflexivity.
Qed.
Theorem C118_set_seed fuel g seed g1 a cs l g2 : invoke fuel g (Plain (SetSeed seed)) = Ok (a, g1) -> invoke_all fuel g1 cs = Ok (l, g2) ->
  exists h, invoke_all fuel (new_generator seed) cs = Ok (l, h).
Proof.
  intros E. assert (AL : alike g1 (new_generator seed)).
  { cbn [RandomGaussModel.invoke rinvoke bind] in E. injection E as _ <-. split; [reflexivity|]. split; [reflexivity|discriminate]. }
  clear E. revert AL. generalize (new_generator seed) as h. revert g1 l g2. induction cs as [|c cs IH]; intros g1 l g2 h AL E; cbn [RandomGaussModel.invoke_all] in E |- *.
  - injection E as <- _. eauto.
  - pose proof (alike_call fuel g1 h c AL) as Q. destruct (invoke fuel g1 c) as [[a1 g3]| | |]; try discriminate. cbn [bind] in E. destruct (invoke fuel h c) as [[a2 h3]| | |]; try contradiction.
    destruct Q as [-> AL2]. cbn [bind]. destruct (invoke_all fuel g3 cs) as [[l3 g4]| | |] eqn:E3; try discriminate. cbn [bind] in E. injection E as <- _.
    destruct (IH _ _ _ _ AL2 E3) as (h4 & ->). cbn [bind]. eauto.
Qed.
End Props.

(** The seed 42, with 2 in place of the factor: two numbers from one candidate;
    after setSeed the first one again. *)
Example C118_ex : match invoke_all (fun _ => two) 10 (new_generator 42) [NextGaussian; NextGaussian; NextGaussian; Plain (SetSeed 42); NextGaussian] with
  | Ok ([Gaussian a; Gaussian b; Gaussian c; Other RDone; Gaussian d], _) => (a, b, SFeqb a d, SFeqb a c) | _ => (one, one, false, false) end =
  (S754_finite false 8198845636792668 (-53), S754_finite false 6601321273145348 (-53), true, false).
Proof. vm_compute. reflexivity. Qed.
Example C118_ex_first : first_inside (scrambled 42) 0.
Proof. split; [vm_compute; auto|]. intros j J. lia. Qed.
Example C118_ex_rejects : ~ inside (dist2 0 0) /\ first_inside 4000012 0.
Proof. split; [vm_compute; intros [A B]; congruence|]. split; [vm_compute; auto|]. intros j J. lia. Qed.
Print Assumptions C118_accepts. Print Assumptions C118_pair. Print Assumptions C118_kept. Print Assumptions C118_total. Print Assumptions C118_set_seed.
