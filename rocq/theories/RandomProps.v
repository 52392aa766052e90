(** C52 Random sequence, C66 random bytes and strings. *)

From Coq Require Import ZArith List Lia Bool.
From Verif Require Import Base Bits RandomSpec RandomModel RandomProofs.
Import ListNotations.
Open Scope Z_scope.

Definition rcall_ok (c : rcall) : Prop := match c with NextBounded b => b <= int_max | _ => True end.

Lemma pow_split bits x : 0 < bits <= 31 -> state_ok x -> 0 <= high bits x < 2 ^ bits.
Proof. intros B X. apply (high_small bits x B X). Qed.

Lemma signed64_wrap v : wrap 64 v = signed64 v.
Proof. reflexivity. Qed.

Lemma call_ok x c : state_ok x -> rcall_ok c -> exists n0 a x', gives x c a x' /\ state_ok x' /\
  forall fuel, (n0 <= fuel)%nat -> rinvoke HW true fuel x c = Ok (a, x').
Proof.
  intros X C. destruct c as [|b| | | | |s]; cbn [rinvoke].
  - exists 0%nat. eexists _, _. split; [constructor|]. split; [apply lcg_ok|]. intros. unfold nextInt. rewrite next_ok by lia. reflexivity.
  - cbn in C. destruct (Z.le_gt_cases b 0) as [L|L].
    + exists 0%nat. eexists _, _. split; [apply G_bad; exact L|]. split; [exact X|]. intros. unfold nextInt_bound.
      destruct (Z.leb_spec b 0); [reflexivity | lia].
    + destruct (bound_ok b x ltac:(lia) X) as (n0 & v & x' & G & _ & OK & F). exists n0. eexists _, _. split; [exact G|]. split; [exact OK|].
      intros fuel FU. rewrite F by exact FU. reflexivity.
  - exists 0%nat. eexists _, _. split; [constructor|]. split; [apply lcg_ok|]. intros. unfold nextBoolean. rewrite next_ok by lia. cbn [bind].
    do 2 f_equal. f_equal. destruct (high_small 1 (lcg x) ltac:(lia) (lcg_ok x)) as (E & R). rewrite E. change (48 - 1) with 47.
    pose proof (lcg_ok x) as LX. unfold state_ok in LX. change (2 ^ 48) with (2 * 2 ^ 47) in LX.
    destruct (Z.leb_spec (2 ^ 47) (lcg x)) as [L|L].
    + assert (1 <= lcg x / 2 ^ 47) by (apply Z.div_le_lower_bound; lia). destruct (Z.eqb_spec (lcg x / 2 ^ 47) 0); [lia | reflexivity].
    + rewrite Z.div_small by lia. reflexivity.
  - exists 0%nat. eexists _, _. split; [constructor|]. split; [apply lcg_ok|]. intros. unfold nextLong, two_draws.
    rewrite next_ok by lia. cbn [bind]. rewrite next_ok by lia. cbn [bind sshl]. change (32 mod 64) with 32.
    unfold sadd. rewrite sres_HW by lia. cbn [bind]. do 3 f_equal. etransitivity; [|apply signed64_wrap]. apply wrap_eq_mod; [lia|].
    rewrite Zplus_mod, (wrap_mod 64), <- Zplus_mod by lia. rewrite Z.shiftl_mul_pow2 by lia. reflexivity.
  - exists 0%nat. eexists _, _. split; [constructor|]. split; [apply lcg_ok|]. intros. unfold nextFloat. rewrite next_ok by lia. reflexivity.
  - exists 0%nat. eexists _, _. split; [constructor|]. split; [apply lcg_ok|]. intros. unfold nextDouble, two_draws.
    rewrite next_ok by lia. cbn [bind]. rewrite next_ok by lia. cbn [bind sshl]. change (27 mod 64) with 27.
    pose proof (pow_split 26 (lcg x) ltac:(lia) (lcg_ok _)) as A. pose proof (pow_split 27 (lcg (lcg x)) ltac:(lia) (lcg_ok _)) as B.
    rewrite Z.shiftl_mul_pow2 by lia. change (2 ^ 26) with 67108864 in A. change (2 ^ 27) with 134217728 in *.
    rewrite wrap_id by (try lia; unfold in_s, smin, smax; lia).
    unfold sadd. rewrite sres_ok by (unfold in_s, smin, smax; lia). reflexivity.
  - exists 0%nat. eexists _, _. split; [constructor|]. split; [apply Z.mod_pos_bound; lia|]. intros. rewrite scramble_ok. reflexivity.
Qed.

Lemma calls_ok cs : forall x, state_ok x -> Forall rcall_ok cs -> exists n0 l x', gives_all x cs l x' /\
  forall fuel, (n0 <= fuel)%nat -> rinvoke_all HW true fuel x cs = Ok (l, x').
Proof.
  induction cs as [|c cs IH]; intros x X C.
  - exists 0%nat. eexists _, _. split; [constructor|]. reflexivity.
  - inversion C; subst. destruct (call_ok x c X) as (n1 & a & x1 & G & X1 & F); [assumption|].
    destruct (IH x1 X1) as (n2 & l & x2 & GA & F2); [assumption|].
    exists (Nat.max n1 n2). eexists _, _. split; [econstructor; eassumption|].
    intros fuel FU. cbn [rinvoke_all]. rewrite F by lia. cbn [bind]. rewrite F2 by lia. reflexivity.
Qed.

(** ** C52 *)

(** Every sequence of calls terminates and answers the documented values
    (gcc/x86-64, operands of + evaluated from left to right). *)
Theorem C52_sequence : forall seed cs, Forall rcall_ok cs ->
  exists fuel0 answers final, gives_all (scrambled seed) cs answers final /\
    forall fuel, (fuel0 <= fuel)%nat -> rinvoke_all HW true fuel (initialScramble seed) cs = Ok (answers, final).
Proof.
  intros seed cs C. rewrite scramble_ok. apply calls_ok; [|exact C]. apply Z.mod_pos_bound. lia.
Qed.
Print Assumptions C52_sequence.

(** The documented values are determined by the seed and the calls: two
    generators with the same seed answer the same. *)
Theorem C52_same_seed : forall seed cs l1 x1 l2 x2,
  gives_all (scrambled seed) cs l1 x1 -> gives_all (scrambled seed) cs l2 x2 -> l1 = l2 /\ x1 = x2.
Proof.
  intros seed cs. generalize (scrambled seed). induction cs as [|c cs IH]; intros x l1 x1 l2 x2 H1 H2; inversion H1; inversion H2; subst; auto.
  match goal with A : gives x c ?a ?y, B : gives x c ?b ?z |- _ => destruct (gives_det x c a y b z A B); subst end.
  match goal with A : gives_all ?y cs _ _, B : gives_all ?y cs _ _ |- _ => destruct (IH _ _ _ _ _ A B); subst end. auto.
Qed.
Print Assumptions C52_same_seed.

(** nextInt(bound) is in [0, bound), and the search for a usable draw ends,
    for every state and every positive bound. *)
Theorem C52_bound : forall x b, 0 <= x < 2 ^ 48 -> 0 < b <= int_max ->
  exists fuel0 v x', 0 <= v < b /\ forall fuel, (fuel0 <= fuel)%nat -> nextInt_bound HW fuel x b = Ok (v, x').
Proof. intros x b X B. destruct (bound_ok b x B X) as (n0 & v & x' & _ & V & _ & F). exists n0, v, x'. auto. Qed.
Print Assumptions C52_bound.

Theorem C52_bad_bound : forall m fuel x b, b <= 0 -> nextInt_bound m fuel x b = Throw InterruptedException.
Proof. intros m fuel x b B. unfold nextInt_bound. destruct (Z.leb_spec b 0); [reflexivity | lia]. Qed.
Print Assumptions C52_bad_bound.

(** nextFloat and nextDouble are in [0, 1). *)
Theorem C52_fractions : forall x a x', state_ok x ->
  gives x NextFloat a x' \/ gives x NextDouble a x' -> exists n d, a = RFraction n d /\ 0 <= n < 2 ^ d.
Proof.
  intros x a x' X [H|H]; inversion H; subst; eexists _, _; split; try reflexivity.
  - apply pow_split; [lia | apply lcg_ok].
  - pose proof (pow_split 26 (lcg x) ltac:(lia) (lcg_ok _)) as A. pose proof (pow_split 27 (lcg (lcg x)) ltac:(lia) (lcg_ok _)) as B.
    change (2 ^ 26) with 67108864 in A. change (2 ^ 27) with 134217728 in *. change (2 ^ 53) with 9007199254740992. lia.
Qed.
Print Assumptions C52_fractions.

(** The generator runs through all 2^48 states before it repeats one: every
    state is reached from every state. *)
Theorem C52_full_period : forall x t, 0 <= x < 2 ^ 48 -> 0 <= t < 2 ^ 48 -> exists n, state_after n x = t.
Proof. intros x t X T. exact (reach x t X T). Qed.
Print Assumptions C52_full_period.

(** ISO C++: the product overflows for every state from 2^29 on (of 2^48), and
    the order of the two draws in nextLong is open. *)
Theorem C52_overflow_iso : forall x bits, 2 ^ 29 <= x -> next ISO x bits = UB SignedOverflow.
Proof.
  intros x bits X. unfold next, advance, smul. rewrite sres_ISO_ub; [reflexivity|]. unfold in_s, smin, smax, MULTIPLIER. lia.
Qed.
Print Assumptions C52_overflow_iso.
Theorem C52_order_iso : exists x a b s, nextLong HW true x = Ok (a, s) /\ nextLong HW false x = Ok (b, s) /\ a <> b.
Proof. exists (scrambled 42). eexists _, _, _. split; [vm_compute; reflexivity|]. split; [vm_compute; reflexivity|]. discriminate. Qed.
Print Assumptions C52_order_iso.

(** The first values of java.util.Random for the seed 42. *)
Example C52_example :
  rinvoke_all HW true 10 (initialScramble 42)
    [NextInt; NextInt; NextBounded 10; NextBounded 16; NextBoolean; NextLong; SetSeed 42; NextInt; NextBounded (-1)] =
  Ok ([RInt (-1170105035); RInt 234785527; RInt 8; RInt 0; RBool false; RLong (-1068554554583376509); RDone;
       RInt (-1170105035); RThrown InterruptedException], state_after 1 (scrambled 42)).
Proof. vm_compute. reflexivity. Qed.
(** ** C66 *)




Lemma bytes_ok n : forall x l, nextBytes_loop HW n x l =
  Ok (l ++ map (fun i => high 32 (state_after (S i) x) / 2 ^ 8 mod 2 ^ 8) (seq 0 n), state_after n x).
Proof.
  induction n as [|n IH]; intros x l; cbn [nextBytes_loop].
  - cbn. rewrite app_nil_r. reflexivity.
  - unfold nextInt. rewrite next_ok by lia. cbn [bind sshr]. change (8 mod 32) with 8. rewrite Z.shiftr_div_pow2 by lia. cbn [bind]. rewrite IH.
    rewrite <- app_assoc. cbn [seq map app]. rewrite <- seq_shift, map_map. reflexivity.
Qed.

(** The drawn bytes are appended to the array. *)
Theorem C66_bytes_appended : forall x bytes,
  nextBytes HW x bytes =
  Ok (bytes ++ map (fun i => high 32 (state_after (S i) x) / 2 ^ 8 mod 2 ^ 8) (seq 0 (List.length bytes)), state_after (List.length bytes) x).
Proof. intros. apply bytes_ok. Qed.
Print Assumptions C66_bytes_appended.

(** A non-empty array is never filled in place: it keeps its old bytes and doubles its length. *)
Theorem C66_bytes_refuted : forall x bytes r x', bytes <> [] -> nextBytes HW x bytes = Ok (r, x') ->
  firstn (List.length bytes) r = bytes /\ List.length r = (2 * List.length bytes)%nat /\ List.length r <> List.length bytes.
Proof.
  intros x bytes r x' NE. rewrite C66_bytes_appended. intros [= <- _].
  rewrite firstn_app, firstn_all, Nat.sub_diag, firstn_O, app_nil_r, app_length, map_length, seq_length.
  destruct bytes; [congruence|]. cbn [List.length]. repeat split; lia.
Qed.
Print Assumptions C66_bytes_refuted.

(** The characters stored by nextString are drawn from the alphabet ... *)
Theorem C66_string_partial : forall n x, state_ok x -> exists fuel0 l x', List.length l = n /\ Forall (fun c => In c CHAR_LIST) l /\ state_ok x' /\
  forall fuel, (fuel0 <= fuel)%nat -> nextString_loop HW n fuel x = Ok (l, x').
Proof.
  induction n as [|n IH]; intros x X.
  - exists 0%nat, [], x. auto.
  - destruct (bound_ok 62 x ltac:(unfold int_max; lia) X) as (n1 & v & x1 & _ & V & X1 & F).
    destruct (IH x1 X1) as (n2 & l & x2 & LE & A & X2 & F2).
    destruct (znth_ex CHAR_LIST v) as (c & C). { change (zlen CHAR_LIST) with 62. lia. }
    exists (Nat.max n1 n2), (c :: l), x2. split; [cbn; lia|]. split.
    { constructor; [|exact A]. rewrite znth_nth in C by lia. eapply nth_error_In; eassumption. }
    split; [exact X2|]. intros fuel FU. cbn [nextString_loop]. rewrite F by lia. cbn [bind]. unfold raw_get. rewrite C. cbn [bind].
    rewrite F2 by lia. reflexivity.
Qed.
Print Assumptions C66_string_partial.

(** ... but every call writes one element past the array. *)
Theorem C66_string_refuted : forall n x, state_ok x -> exists fuel0, forall fuel, (fuel0 <= fuel)%nat -> nextString HW fuel x n = UB OutOfBounds.
Proof.
  intros n x X. destruct (C66_string_partial (Z.to_nat n) x X) as (f0 & l & x' & LE & _ & _ & F). exists f0. intros fuel FU.
  unfold nextString. destruct (Z.leb_spec n 0); [reflexivity|]. rewrite F by exact FU. cbn [bind]. unfold raw_set.
  replace (znth l n) with (@None Z); [reflexivity|]. symmetry. apply znth_None. unfold zlen. lia.
Qed.
Print Assumptions C66_string_refuted.

Example C66_example : (exists s, nextBytes HW (scrambled 42) [1; 2] = Ok ([1; 2; 157; 138], s)) /\
  (exists s, nextString_loop HW 4 10 (scrambled 42) = Ok ([103; 80; 73; 50], s)).
Proof. split; eexists; vm_compute; reflexivity. Qed.
