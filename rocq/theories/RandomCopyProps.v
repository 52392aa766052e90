(** C119: a copy of a generator. *)
From Coq Require Import ZArith List Bool Lia Floats.SpecFloat.
From Verif Require Import Base Bits RandomSpec RandomModel RandomProofs RandomProps RandomGaussModel RandomGaussSpec RandomGaussProofs RandomGaussProps RandomCopyModel.
Import ListNotations.
Open Scope Z_scope.

Section Props.
Variable scale : spec_float -> spec_float.
Notation invoke := (invoke scale). Notation invoke_all := (invoke_all scale).

(** Whether the number of calls of nextGaussian() since the seed was last set
    is odd ([b]: whether it was before these calls). *)
Fixpoint odd_gaussians (b : bool) (cs : list call) : bool :=
  match cs with
  | [] => b
  | NextGaussian :: r => odd_gaussians (negb b) r
  | Plain (SetSeed _) :: r => odd_gaussians false r
  | Plain _ :: r => odd_gaussians b r
  end.
Lemma have_odd fuel : forall cs g l g', invoke_all fuel g cs = Ok (l, g') -> have g' = odd_gaussians (have g) cs.
Proof.
  induction cs as [|c cs IH]; intros g l g' E; cbn [RandomGaussModel.invoke_all] in E; [injection E as _ <-; reflexivity|].
  destruct (invoke fuel g c) as [[a g1]| | |] eqn:E1; try discriminate. cbn [bind] in E. destruct (invoke_all fuel g1 cs) as [[l2 g2]| | |] eqn:E2; try discriminate. cbn [bind] in E. injection E as _ <-.
  rewrite (IH _ _ _ E2). destruct c as [c|]; cbn [RandomGaussModel.invoke] in E1.
  - destruct (rinvoke HW true fuel (seed_ g) c) as [[b s]| | |]; try discriminate. cbn [bind] in E1. injection E1 as _ <-. destruct c; reflexivity.
  - unfold nextGaussian in E1. cbn [odd_gaussians]. destruct (have g).
    + destruct (number g); try discriminate. cbn [bind] in E1. injection E1 as _ <-. reflexivity.
    + destruct (polar fuel (seed_ g)) as [[[[v1 v2] s] x]| | |]; try discriminate. cbn [bind] in E1. injection E1 as _ <-. reflexivity.
Qed.
Lemma alike_all fuel : forall cs g h l g', alike g h -> invoke_all fuel g cs = Ok (l, g') -> exists h', invoke_all fuel h cs = Ok (l, h').
Proof.
  induction cs as [|c cs IH]; intros g h l g' AL E; cbn [RandomGaussModel.invoke_all] in E |- *; [injection E as <- _; eauto|].
  pose proof (alike_call scale fuel g h c AL) as Q. destruct (invoke fuel g c) as [[a1 g3]| | |]; try discriminate. cbn [bind] in E. destruct (invoke fuel h c) as [[a2 h3]| | |]; try contradiction.
  destruct Q as [-> AL2]. cbn [bind]. destruct (invoke_all fuel g3 cs) as [[l3 g4]| | |] eqn:E3; try discriminate. cbn [bind] in E. injection E as <- _. destruct (IH _ _ _ _ AL2 E3) as (h4 & ->). cbn [bind]. eauto.
Qed.
(** A copy made after an even number of calls of nextGaussian() answers every sequence
    of calls as the original. *)
Theorem C119_even_partial fuel seed before l g cs l1 g1 : invoke_all fuel (new_generator seed) before = Ok (l, g) -> odd_gaussians false before = false ->
  invoke_all fuel g cs = Ok (l1, g1) -> exists g2, invoke_all fuel (copy g) cs = Ok (l1, g2).
Proof.
  intros E O R. apply have_odd in E. cbn [have new_generator] in E. rewrite O in E. apply (alike_all fuel cs g (copy g) l1 g1); [|exact R].
  split; [reflexivity|]. split; [exact E|]. rewrite E. discriminate.
Qed.
(** And every copy answers the other calls as the original. *)
Theorem C119_others_partial fuel g cs l1 g1 : Forall (fun c => c <> NextGaussian) cs -> invoke_all fuel g cs = Ok (l1, g1) -> exists g2, invoke_all fuel (copy g) cs = Ok (l1, g2).
Proof.
  intros F. assert (Q : seed_ g = seed_ (copy g)) by reflexivity. revert Q. generalize (copy g) as h. revert g l1 g1. induction cs as [|c cs IH]; intros g l1 g1 h Q E; cbn [RandomGaussModel.invoke_all] in E |- *; [injection E as <- _; eauto|].
  inversion F as [|? ? F1 F2]; subst. destruct c as [c|]; [|congruence]. cbn [RandomGaussModel.invoke] in E |- *. rewrite <- Q. destruct (rinvoke HW true fuel (seed_ g) c) as [[b s]| | |]; try discriminate. cbn [bind] in E |- *.
  match type of E with bind (invoke_all fuel ?x cs) _ = _ => destruct (invoke_all fuel x cs) as [[l2 g2]| | |] eqn:E2; try discriminate end. cbn [bind] in E. injection E as <- _.
  match goal with |- context [invoke_all fuel ?x cs] => assert (H2 : exists h2, invoke_all fuel x cs = Ok (l2, h2)) by (eapply IH; [exact F2| |exact E2]; reflexivity); destruct H2 as (h2 & H2) end. rewrite H2. cbn [bind]. eauto.
Qed.
(** But a copy made between the two numbers of a pair forgets the second one:
    it draws a new pair, and from then on even nextInt() differs. *)
Theorem C119_copy_refuted : exists seed l g l1 g1 l2 g2 x y,
  invoke_all 10 (new_generator seed) [NextGaussian] = Ok (l, g) /\
  invoke_all 10 g [NextGaussian; Plain NextInt] = Ok (l1, g1) /\
  invoke_all 10 (copy g) [NextGaussian; Plain NextInt] = Ok (l2, g2) /\
  nth_error l1 1 = Some (Other (RInt x)) /\ nth_error l2 1 = Some (Other (RInt y)) /\ x <> y.
Proof.
  exists 42. do 8 eexists.
  assert (F1 : first_inside (initialScramble 42) 0) by (split; [vm_compute; auto|intros j J; lia]).
  assert (E1 : invoke_all 10 (new_generator 42) [NextGaussian] = Ok ([Gaussian (dmul (cand1 (initialScramble 42) 0) (scale (dist2 (initialScramble 42) 0)))], mkG 13493716152507 true (Some (dmul (cand2 (initialScramble 42) 0) (scale (dist2 (initialScramble 42) 0)))))).
  { cbn [RandomGaussModel.invoke_all RandomGaussModel.invoke]. unfold nextGaussian, new_generator. cbn [have seed_]. rewrite (polar_ok 0 _ 10 F1) by lia. cbn [bind]. replace (state_after (4 * 0 + 4) (initialScramble 42)) with 13493716152507 by (vm_compute; reflexivity). reflexivity. }
  split; [exact E1|]. unfold copy. cbn [RandomGaussModel.invoke_all RandomGaussModel.invoke seed_]. unfold nextGaussian. cbn [have number seed_ bind].
  assert (P : polar 10 13493716152507 = Ok (S754_finite true 6891607917496472 (-54), S754_finite true 8031593832279892 (-54), S754_finite false 6217291080591128 (-54), 199202821746287)) by (vm_compute; reflexivity).
  rewrite P. cbn [bind].
  remember (rinvoke HW true 10 13493716152507 NextInt) as r1 eqn:R1. remember (rinvoke HW true 10 199202821746287 NextInt) as r2 eqn:R2. vm_compute in R1, R2. subst r1 r2. cbn [bind].
  split; [reflexivity|]. split; [reflexivity|]. split; [reflexivity|]. split; [reflexivity|]. discriminate.
Qed.
End Props.

Print Assumptions C119_even_partial. Print Assumptions C119_others_partial. Print Assumptions C119_copy_refuted.

(** The hypotheses of the theorems are met: two calls of nextGaussian() and a
    nextInt() are an even history, and the copy then draws a new pair as the
    original does. *)
Example C119_ex : let scale := fun _ : spec_float => two in
  odd_gaussians false [NextGaussian; Plain NextInt; NextGaussian] = false /\
  odd_gaussians false [NextGaussian; Plain (SetSeed 7)] = false /\ odd_gaussians false [NextGaussian] = true /\
  match RandomGaussModel.invoke_all scale 10 (new_generator 42) [NextGaussian; Plain NextInt; NextGaussian] with
  | Ok (_, g) => match RandomGaussModel.invoke_all scale 10 g [NextGaussian; Plain NextInt], RandomGaussModel.invoke_all scale 10 (copy g) [NextGaussian; Plain NextInt] with
                 | Ok (l1, _), Ok (l2, _) => l1 = l2 /\ length l1 = 2%nat
                 | _, _ => False
                 end
  | _ => False
  end.
Proof. vm_compute. repeat split. Qed.
