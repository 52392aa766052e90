(** Calls of the free list end: a measure that every step lowers. *)

From Coq Require Import ZArith List Bool Lia Arith.
From Verif Require Import Base Bits FreeListModel FreeListSpec FreeListProofs FreeListProofs2.
Import ListNotations.
Open Scope Z_scope.

Definition eqo (a b : option node) : bool := match a, b with Some x, Some y => Nat.eqb x y | None, None => true | _, _ => false end.
Lemma eqo_spec a b : if eqo a b then a = b else a <> b.
Proof. destruct a as [x|], b as [y|]; cbn; try congruence. destruct (Nat.eqb_spec x y); congruence. Qed.
Lemma eqo_refl a : eqo a a = true.
Proof. pose proof (eqo_spec a a). destruct (eqo a a); congruence. Qed.
Lemma eqo_ne a b : a <> b -> eqo a b = false.
Proof. pose proof (eqo_spec a b). destruct (eqo a b); congruence. Qed.

(** Changes of a counter the thread can make before freeListHead changes *)
Definition back (hd : option node) (k : kont) : Z := match k with KGet (Some h) => if eqo hd (Some h) then 1 else 3 | _ => 0 end.
Definition ev (hd : option node) (p : pc) : Z :=
  match p with
  | Idle => 0 | A0 _ => 2 | A1 _ _ => 1
  | A2 _ v k | A3 _ v k => if eqo hd v then 1 else 2 + Z.max 1 (back hd k)
  | A4 _ v k => if eqo hd v then 0 else 1 + Z.max 1 (back hd k)
  | A5 _ v k => 1 + Z.max (if eqo hd v then 1 else 2 + Z.max 1 (back hd k)) (back hd k)
  | G1 => 1
  | G2 h | G3 h _ => back hd (KGet (Some h))
  | G4 h | G5 h _ => if eqo hd (Some h) then 0 else 2
  | G6 _ => 1
  | G7 _ v => 1 + Z.max 1 (back hd (KGet v))
  end.
(** Steps of the thread before it changes a counter, if nobody changes anything *)
Definition near (rf : node -> Z) (p : pc) : Z :=
  match p with
  | Idle => 0 | A0 _ => 1 | A1 _ _ => 3 | A2 _ _ _ => 2 | A3 _ _ _ => 1 | A4 _ _ _ => 2 | A5 _ _ _ => 1
  | G1 => 3
  | G2 h => if refs_of (rf h) =? 0 then 5 else 2
  | G3 h r => if negb (refs_of r =? 0) && (r =? rf h) then 1 else 4
  | G4 _ => 3 | G5 _ _ => 2 | G6 _ => 1 | G7 _ _ => 1
  end.
Lemma back_range hd k : 0 <= back hd k <= 3.
Proof. destruct k as [|[|]]; cbn; try lia. destruct (eqo _ _); lia. Qed.
Lemma ev_range hd p : 0 <= ev hd p <= 6.
Proof. destruct p; cbn [ev]; try lia; try (pose proof (back_range hd k); destruct (eqo _ _); lia); try apply back_range; try (destruct (eqo _ _); lia); [pose proof (back_range hd (KGet (Some h))); lia|pose proof (back_range hd (KGet (Some h))); lia|pose proof (back_range hd (KGet hd0)); lia]. Qed.
Lemma near_range rf p : 0 <= near rf p <= 5.
Proof. destruct p; cbn [near]; try lia; [destruct (_ =? _); lia|destruct (_ && _); lia]. Qed.
Lemma weight_range p : 0 <= weight p <= 2.
Proof. destruct p; cbn [weight]; try lia; destruct k; cbn [wk]; lia. Qed.
Lemma resume_ev hd k : ev hd (fst (resume k)) = back hd k.
Proof. destruct k as [|[|]]; reflexivity. Qed.

Lemma measure_tstep m p m' p' l : (forall h, head m = Some h -> refs_of (refs m h) <> 0) -> tstep false m p m' p' l ->
  change p p' = 1 \/ head m' = head m /\ (ev (head m) p' < ev (head m) p \/ ev (head m) p' <= ev (head m) p /\ refs m' = refs m /\ near (refs m) p' < near (refs m) p).
Proof.
  intros HD ST. destruct ST; try (right; split; [reflexivity|]); cbn [ev near]; try (left; lia).
  - destruct H as [H|H]; [discriminate|]. subst v. right. rewrite eqo_refl. repeat split; lia.
  - right. repeat split; lia.
  - left. destruct (eqo _ _); lia.
  - left. apply resume_change.
  - right. destruct H0 as [H0|H0]; [discriminate|]. subst v. rewrite eqo_refl, (eqo_ne _ _ H). pose proof (back_range (head m) k). repeat split; lia.
  - left. rewrite resume_ev. pose proof (back_range (head m) k). lia.
  - right. destruct H as [H|H]; [discriminate|]. subst v. rewrite resume_ev. pose proof (HD) as HD0. destruct (head m) as [h|] eqn:HH; cbn [back resume fst near]; [|repeat split; lia].
    rewrite eqo_refl. specialize (HD0 h eq_refl). apply Z.eqb_neq in HD0. rewrite HD0. repeat split; lia.
  - right. destruct H as [H|H]; [discriminate|]. subst r. rewrite Z.eqb_refl. destruct (refs_of (refs m h) =? 0); cbn [negb andb]; repeat split; lia.
  - right. rewrite H. cbn [Z.eqb negb andb]. cbn [back]. destruct (eqo _ _); repeat split; lia.
  - right. assert (Q : (r =? refs m h) = false) by (apply Z.eqb_neq; congruence). rewrite Q, andb_false_r. cbn [back]. destruct (eqo _ _); repeat split; lia.
  - left. cbn [back]. destruct (eqo _ _); lia.
  - right. repeat split; lia.
  - left. reflexivity.
  - right. destruct H0 as [H0|H0]; [discriminate|]. subst v. rewrite (eqo_ne _ _ H). destruct (head m) as [h0|]; cbn [back]; rewrite ?eqo_refl; repeat split; lia.
  - left. rewrite resume_ev. lia.
Qed.

(** The measure of a state *)
Definition K2 (T : Z) : Z := 5 * T + 1.
Definition K1 (T : Z) : Z := 6 * T * K2 T + 5 * T + 1.
Definition measure (T : nat) (P : list node) (s : sys) : Z :=
  (Z.of_nat (length P) + sum weight (threads s)) * K1 (Z.of_nat T) + sum (ev (head (memory s))) (threads s) * K2 (Z.of_nat T) + sum (near (refs (memory s))) (threads s).

Section Finite.
Variable T : nat.
Hypothesis BD : Z.of_nat T < 2 ^ 30 - 1.
Lemma sums_bound (s : sys) (f : pc -> Z) c : length (threads s) = T -> (forall p, 0 <= f p <= c) -> 0 <= sum f (threads s) <= c * Z.of_nat T.
Proof. intros E H. split; [apply sum_nonneg; intros; apply H|]. rewrite <- E. apply sum_le. intros; apply H. Qed.
Lemma measure_nonneg ph L P s : inv T ph L P s -> 0 <= measure T P s.
Proof.
  intros I. pose proof (i_len _ _ _ _ _ I) as LN. unfold measure.
  pose proof (sums_bound s weight 2 LN weight_range). pose proof (sums_bound s (ev (head (memory s))) 6 LN (ev_range _)). pose proof (sums_bound s (near (refs (memory s))) 5 LN (near_range _)).
  assert (0 <= K2 (Z.of_nat T)) by (unfold K2; lia). assert (0 <= K1 (Z.of_nat T)) by (unfold K1; nia). nia.
Qed.
Lemma listed_ref ph L P s h : inv T ph L P s -> head (memory s) = Some h -> refs_of (refs (memory s) h) <> 0.
Proof.
  intros I E. pose proof (i_chain _ _ _ _ _ I) as C. destruct L as [|x r]; cbn [linked] in C; [congruence|]. destruct C as [C _]. rewrite C in E. injection E as ->.
  assert (PH : ph h = Listed) by (apply (i_listed _ _ _ _ _ I); left; reflexivity). pose proof (i_refs _ _ _ _ _ I h) as R. rewrite PH in R. cbn [base] in R.
  pose proof (holders_small _ _ _ _ _ I BD h) as SM. assert (0 <= refs (memory s) h) as R0 by (rewrite R; destruct SM; lia). rewrite (refs_of_range _ R0). rewrite R, Z.mod_small; unfold FLAG in *; lia.
Qed.
Lemma measure_step ph L P a i l b : inv T ph L P a -> step false i l a b -> exists ph' L' P', inv T ph' L' P' b /\ measure T P' b < measure T P a.
Proof.
  intros I S0. destruct S0 as [m ts c p m' p' l E ST].
  destruct (inv_tstep false T BD ph L P (mkSys m ts c) i p m' p' l I E ST) as (ph' & L' & P' & I' & WT). exists ph', L', P'. split; [exact I'|].
  pose proof (measure_tstep m p m' p' l (fun h => listed_ref ph L P _ h I) ST) as MT. unfold measure. cbn [memory threads].
  pose proof (i_len _ _ _ _ _ I) as LN. cbn [threads] in LN. pose proof (i_len _ _ _ _ _ I') as LN'. cbn [threads] in LN'.
  pose proof (sums_bound (mkSys m' (upd ts i p') c) (ev (head m')) 6 LN' (ev_range _)) as B1. cbn [threads] in B1.
  pose proof (sums_bound (mkSys m' (upd ts i p') c) (near (refs m')) 5 LN' (near_range _)) as B2. cbn [threads] in B2.
  pose proof (sums_bound (mkSys m ts c) (ev (head m)) 6 LN (ev_range _)) as B3. cbn [threads] in B3.
  pose proof (sums_bound (mkSys m ts c) (near (refs m)) 5 LN (near_range _)) as B4. cbn [threads] in B4.
  pose proof (sum_upd weight ts i p p' E) as SW.
  assert (KP : 0 < K2 (Z.of_nat T)) by (unfold K2; lia).
  assert (C01 : 0 <= change p p') by (destruct p, p'; cbn; lia).
  set (N := Z.of_nat T) in *. set (W := Z.of_nat (length P) + sum weight ts) in *. set (W' := Z.of_nat (length P') + sum weight (upd ts i p')) in *.
  assert (WW : W' + change p p' <= W) by (unfold W, W'; lia).
  assert (KK : K1 N = 6 * N * K2 N + 5 * N + 1) by reflexivity. assert (K2N : K2 N = 5 * N + 1) by reflexivity. assert (N0 : 0 <= N) by (unfold N; lia).
  assert (K1P : 0 < K1 N) by nia.
  destruct MT as [CH|(HH & [EV|(EV & RF & NR)])].
  - rewrite CH in WW. assert (W' * K1 N <= (W - 1) * K1 N) by (apply Z.mul_le_mono_nonneg_r; lia).
    assert (sum (ev (head m')) (upd ts i p') * K2 N <= 6 * N * K2 N) by (apply Z.mul_le_mono_nonneg_r; lia).
    assert (0 <= sum (ev (head m)) ts * K2 N) by (apply Z.mul_nonneg_nonneg; lia). lia.
  - assert (W' * K1 N <= W * K1 N) by (apply Z.mul_le_mono_nonneg_r; lia). rewrite HH in *. rewrite (sum_upd _ ts i p p' E).
    assert ((sum (ev (head m)) ts - ev (head m) p + ev (head m) p') * K2 N <= (sum (ev (head m)) ts - 1) * K2 N) by (apply Z.mul_le_mono_nonneg_r; lia). lia.
  - assert (W' * K1 N <= W * K1 N) by (apply Z.mul_le_mono_nonneg_r; lia). rewrite HH, RF in *. rewrite !(sum_upd _ ts i p p' E).
    assert ((sum (ev (head m)) ts - ev (head m) p + ev (head m) p') * K2 N <= sum (ev (head m)) ts * K2 N) by (apply Z.mul_le_mono_nonneg_r; lia). lia.
Qed.
Lemma steps_bounded k a b : steps false k a b -> forall ph L P, inv T ph L P a -> Z.of_nat k <= measure T P a.
Proof.
  induction 1 as [s|k i l a b c S0 H IH]; intros ph L P I; [pose proof (measure_nonneg _ _ _ _ I); lia|].
  destruct (measure_step ph L P a i l b I S0) as (ph' & L' & P' & I' & LT). specialize (IH _ _ _ I'). lia.
Qed.
(** At most two waiting nodes for each thread *)
Lemma hold_sum (P : list node) p : NoDup P -> fold_right (fun n z => hold n p + z) 0 P <= 2.
Proof.
  intros N. assert (G : forall n r, NoDup (n :: r) -> hold n p <> 0 -> fold_right (fun n z => hold n p + z) 0 r = 0).
  { intros n r D H. inversion D as [|? ? NI D']; subst. assert (Q : forall k, In k r -> hold k p = 0).
    { intros k K. assert (k <> n) by (intros ->; contradiction). destruct p; cbn [hold] in *; try congruence; try reflexivity; destruct (Nat.eqb_spec h n); try congruence; destruct (Nat.eqb_spec h k); congruence. }
    clear -Q. induction r as [|y r IH]; [reflexivity|]. cbn. rewrite (Q y) by (left; reflexivity). rewrite IH; [reflexivity|]. intros; apply Q; right; assumption. }
  induction N as [|n r NI D IH]; cbn; [lia|]. destruct (Z.eq_dec (hold n p) 0) as [->|H]; [lia|]. rewrite (G n r) by (auto; now constructor). pose proof (hold_range n p). lia.
Qed.
Lemma waiting_few ph L P s : inv T ph L P s -> Z.of_nat (length P) <= 2 * Z.of_nat T.
Proof.
  intros I. rewrite <- (i_len _ _ _ _ _ I). pose proof (i_pend _ _ _ _ _ I) as ND.
  assert (A : Z.of_nat (length P) <= fold_right (fun n z => holders (threads s) n + z) 0 P).
  { assert (Q : forall n, In n P -> 1 <= holders (threads s) n) by (intros n K; apply (i_wait _ _ _ _ _ I), (i_waiting _ _ _ _ _ I), K).
    clear -Q. induction P as [|y r IH]; [cbn; lia|]. cbn [length fold_right]. pose proof (Q y (or_introl eq_refl)). assert (Z.of_nat (length r) <= fold_right (fun n z => holders (threads s) n + z) 0 r) by (apply IH; intros; apply Q; right; assumption). lia. }
  assert (B : fold_right (fun n z => holders (threads s) n + z) 0 P = sum (fun p => fold_right (fun n z => hold n p + z) 0 P) (threads s)).
  { unfold holders. generalize (threads s). clear. intros ts. induction ts as [|p ts IH]; cbn [sum].
    - induction P as [|y r IH]; [reflexivity|]. cbn. exact IH.
    - rewrite <- IH. clear IH. induction P as [|y r IH]; [reflexivity|]. cbn. lia. }
  rewrite B in A. pose proof (sum_le (fun p => fold_right (fun n z => hold n p + z) 0 P) 2 (threads s) (fun p => hold_sum P p ND)). lia.
Qed.
Lemma measure_bound ph L P s : inv T ph L P s -> measure T P s <= 120 * Z.of_nat T ^ 3 + 74 * Z.of_nat T ^ 2 + 15 * Z.of_nat T.
Proof.
  intros I. pose proof (i_len _ _ _ _ _ I) as LN. pose proof (waiting_few _ _ _ _ I) as WF. unfold measure.
  pose proof (sums_bound s weight 2 LN weight_range) as B1. pose proof (sums_bound s (ev (head (memory s))) 6 LN (ev_range _)) as B2. pose proof (sums_bound s (near (refs (memory s))) 5 LN (near_range _)) as B3.
  set (N := Z.of_nat T) in *. assert (N0 : 0 <= N) by (unfold N; lia). assert (KP : 0 <= K2 N) by (unfold K2; lia). assert (K1P : 0 <= K1 N) by (unfold K1; nia).
  assert ((Z.of_nat (length P) + sum weight (threads s)) * K1 N <= (4 * N) * K1 N) by (apply Z.mul_le_mono_nonneg_r; lia).
  assert (sum (ev (head (memory s))) (threads s) * K2 N <= (6 * N) * K2 N) by (apply Z.mul_le_mono_nonneg_r; lia).
  assert (Q : 120 * N ^ 3 + 74 * N ^ 2 + 15 * N = (4 * N) * K1 N + (6 * N) * K2 N + 5 * N) by (unfold K1, K2; ring). lia.
Qed.
End Finite.
