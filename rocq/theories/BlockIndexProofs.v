(** Invariant of the block index. *)

From Coq Require Import ZArith List Bool Lia ZifyBool ZifyNat Znumtheory.
From Verif Require Import Base SubQueueModel BlockIndexModel BlockIndexSpec.
Import ListNotations.
Open Scope Z_scope.

Lemma fupd_same {A} (f : nat -> A) k v : fupd f k v k = v.
Proof. unfold fupd. now rewrite Nat.eqb_refl. Qed.
Lemma fupd_other {A} (f : nat -> A) k v x : x <> k -> fupd f k v x = f x.
Proof. intros N. unfold fupd. destruct (Nat.eqb_spec x k); congruence. Qed.
Lemma zfupd_same {A} (f : Z -> A) k v : zfupd f k v k = v.
Proof. unfold zfupd. now rewrite Z.eqb_refl. Qed.
Lemma zfupd_other {A} (f : Z -> A) k v x : x <> k -> zfupd f k v x = f x.
Proof. intros N. unfold zfupd. destruct (Z.eqb_spec x k); congruence. Qed.

Lemma land_mask x a : 0 <= a <= 64 -> Z.land (uwrap 64 x) (uwrap 64 (2 ^ a - 1)) = x mod 2 ^ a.
Proof.
  intros H. unfold uwrap.
  assert (P : 0 < 2 ^ a) by (apply Z.pow_pos_nonneg; lia).
  assert (L : 2 ^ a <= 2 ^ 64) by (apply Z.pow_le_mono_r; lia).
  rewrite (Z.mod_small (2 ^ a - 1)) by lia.
  replace (2 ^ a - 1) with (Z.ones a) by (rewrite Z.ones_equiv; lia).
  rewrite Z.land_ones by lia.
  symmetry. apply Zmod_div_mod; try lia. exists (2 ^ (64 - a)). rewrite <- Z.pow_add_r by lia. f_equal. lia.
Qed.

Lemma mod_inj c x y : 0 < c -> x mod c = y mod c -> - c < x - y < c -> x = y.
Proof.
  intros P E R.
  assert (D : (x - y) mod c = 0) by (rewrite Zminus_mod, E, Z.sub_diag; reflexivity).
  apply Z.mod_divide in D; [|lia]. destruct D as [q D].
  assert (q = 0) by nia. subst q. lia.
Qed.

(** The slot of block number [m] in a header. *)
Definition pos (h : hdr) (m : Z) : Z := (m - lo h) mod cap h.
Definition win (h : hdr) (m : Z) : Prop := lo h <= m /\ cnt h - cap h <= m < cnt h.

Lemma capp h : (exists a, 1 <= a <= 58 /\ cap h = 2 ^ a) -> 2 <= cap h.
Proof. intros (a & R & E). rewrite E. change 2 with (2 ^ 1) at 1. apply Z.pow_le_mono_r; lia. Qed.

Lemma turn_spec h d : (exists a, 1 <= a <= 58 /\ cap h = 2 ^ a) -> turn h d = (tailv h + d) mod cap h.
Proof. intros (a & R & E). unfold turn. rewrite E. apply land_mask. lia. Qed.

Lemma pos_shift h m d : 0 < cap h -> (pos h m + d) mod cap h = pos h (m + d).
Proof. intros P. unfold pos. rewrite Zplus_mod_idemp_l. f_equal. lia. Qed.
Lemma pos_range h m : 0 < cap h -> 0 <= pos h m < cap h.
Proof. intros P. apply Z.mod_pos_bound. lia. Qed.
Lemma pos_back h m : 0 < cap h -> pos h (m - cap h) = pos h m.
Proof. intros P. unfold pos. replace (m - cap h - lo h) with (m - lo h + (-1) * cap h) by lia. apply Z.mod_add. lia. Qed.

(** Different slots hold different entries. *)
Lemma slot_inj h p q e : NoDup (index h) -> 0 <= p -> 0 <= q -> slot_at h p = Some e -> slot_at h q = Some e -> p = q.
Proof.
  intros N P Q Ep Eq. unfold slot_at in *.
  assert (L : (Z.to_nat p < length (index h))%nat) by (apply nth_error_Some; congruence).
  rewrite NoDup_nth_error in N. specialize (N (Z.to_nat p) (Z.to_nat q) L ltac:(congruence)). lia.
Qed.

Lemma pos_inj h m m' e : NoDup (index h) -> 2 <= cap h -> slot_at h (pos h m) = Some e -> slot_at h (pos h m') = Some e ->
  - cap h < m - m' < cap h -> m = m'.
Proof.
  intros N C E E' R.
  pose proof (slot_inj h (pos h m) (pos h m') e N (proj1 (pos_range h m ltac:(lia))) (proj1 (pos_range h m' ltac:(lia))) E E') as Q.
  unfold pos in Q. apply mod_inj in Q; lia.
Qed.

Section Inv.
Variable (lb : Z).
Notation B := (2 ^ lb).

(** What holds of every header, whether it is current or not. *)
Record goodh (nb : Z) (names : Z -> nat) (pubs : Z -> nat * nat) (gone : Z -> bool) (k : nat) (h : hdr) : Prop := mkGood {
  g_pow : exists a, 1 <= a <= 58 /\ cap h = 2 ^ a;
  g_len : length (index h) = Z.to_nat (cap h);
  g_tls : tails h <> [];
  g_lo : 0 <= lo h <= nb;
  g_win : forall m, win h m -> slot_at h (pos h m) = Some (names m);
  g_use : forall n, 0 <= n < nb -> gone n = false -> n < cnt h -> win h n;
  g_tl : forall n j t, 0 <= n < nb -> (fst (pubs n) <= k)%nat -> (k = fst (pubs n) -> (snd (pubs n) <= j)%nat) ->
         nth_error (tails h) j = Some t -> exists m, n <= m < cnt h /\ t = pos h m }.

Record struct (ents : nat -> ent) (ne : nat) (hdrs : nat -> hdr) (nh : nat) (nextcap nb : Z) (names : Z -> nat)
              (pubs : Z -> nat * nat) (gone : Z -> bool) (puts : list nat) : Prop := mkStruct {
  s_nh : (0 < nh)%nat;
  s_good : forall k, (k < nh)%nat -> goodh nb names pubs gone k (hdrs k);
  s_old : forall k, (k < pred nh)%nat -> cnt (hdrs k) <= nb;
  s_next : nextcap = 2 * cap (hdrs (pred nh));
  s_nb : nb = Z.of_nat (length puts);
  s_cnt : nb <= cnt (hdrs (pred nh)) <= nb + 1;
  s_key : forall m, win (hdrs (pred nh)) m -> key (ents (names m)) = uwrap 64 (B * m);
  s_fresh : forall m, cnt (hdrs (pred nh)) <= m < lo (hdrs (pred nh)) + cap (hdrs (pred nh)) ->
            exists e, slot_at (hdrs (pred nh)) (pos (hdrs (pred nh)) m) = Some e /\ key (ents e) = INVALID;
  s_nodup : NoDup (index (hdrs (pred nh)));
  s_ids : forall e, In e (index (hdrs (pred nh))) -> (e < ne)%nat;
  s_val : forall n, 0 <= n < nb -> gone n = false ->
          exists b, val (ents (names n)) = Ptr b /\ nth_error puts (Z.to_nat n) = Some b;
  s_set : forall n, win (hdrs (pred nh)) n -> n < nb -> val (ents (names n)) <> Garbage;
  s_pub : forall n, 0 <= n < nb -> (fst (pubs n) < nh)%nat;
  s_gone : forall n, nb <= n -> gone n = false }.

Definition structs (s : ist) : Prop :=
  struct (ents s) (ne s) (hdrs s) (nh s) (nextcap s) (nb s) (names s) (pubs s) (gone s) (blocks_put (ihist s)).

Definition tail_is (s : ist) (m : Z) : Prop := tailv (cur s) = pos (cur s) m.

Definition prod_ok (s : ist) : Prop :=
  match prod s with
  | PIdle | P1 => tail_is s (nb s - 1) /\ (cnt (cur s) = nb s + 1 -> val (ents s (names s (nb s))) = Null)
  | PGrow => tail_is s (nb s - 1) /\ cnt (cur s) = nb s /\ lo (cur s) + cap (cur s) <= nb s
  | P1b => tail_is s (nb s - 1) /\ cnt (cur s) = nb s /\ nb s < lo (cur s) + cap (cur s)
  | P2 e nt => tail_is s (nb s - 1) /\ nt = pos (cur s) (nb s) /\ slot_at (cur s) nt = Some e /\
               (cnt (cur s) = nb s + 1 \/ nb s < lo (cur s) + cap (cur s) \/ lo (cur s) <= nb s - cap (cur s) /\ gone s (nb s - cap (cur s)) = true)
  | P3 e nt => tail_is s (nb s - 1) /\ nt = pos (cur s) (nb s) /\ e = names s (nb s) /\ cnt (cur s) = nb s + 1
  | P4 e | P5 e | P6 e _ => tail_is s (nb s) /\ e = names s (nb s) /\ cnt (cur s) = nb s + 1
  | P5b e => tail_is s (nb s - 1) /\ e = names s (nb s) /\ cnt (cur s) = nb s + 1
  | PBad _ => False
  end.

Definition held (s : ist) (c : nat) (i : Z) : Prop :=
  0 <= i / B < nb s /\ gone s (i / B) = false /\ In c (users s (i / B)).
Definition cons_ok (s : ist) (c : nat) : Prop :=
  match cons s c with
  | CIdle => True
  | L1 i => held s c i
  | L2 i h => held s c i /\ (fst (pubs s (i / B)) <= h < nh s)%nat
  | L3 i h t => held s c i /\ (h < nh s)%nat /\ exists m, i / B <= m < cnt (hdrs s h) /\ t = pos (hdrs s h) m
  | L4 i e | L5 i e => held s c i /\ e = names s (i / B)
  | CBad _ => False
  end.

Definition looks_ok (h : list event) : Prop :=
  forall i v, In (Look i v) h -> 0 <= i / B /\ exists b, v = Ptr b /\ nth_error (blocks_put h) (Z.to_nat (i / B)) = Some b.

Definition inv (s : ist) : Prop := structs s /\ prod_ok s /\ (forall c, cons_ok s c) /\ looks_ok (ihist s).

Lemma names_inj s m m' : structs s -> win (cur s) m -> win (cur s) m' -> names s m = names s m' -> m = m'.
Proof.
  intros S W W' E. destruct S. unfold cur, curh in *.
  pose proof (s_good0 (pred (nh s)) ltac:(lia)) as G. destruct G.
  pose proof (capp _ g_pow0) as P2.
  pose proof (g_win0 m W) as A. pose proof (g_win0 m' W') as A'. rewrite E in A.
  apply (pos_inj _ _ _ _ s_nodup0 P2 A A'). unfold win in *. lia.
Qed.

(** The entry of a slot that is free for block [nb] is not that of any other
    block in use or in the window that follows. *)
Lemma slot_not s e m : structs s -> slot_at (cur s) (pos (cur s) (nb s)) = Some e -> win (cur s) m -> m <> nb s -> m <> nb s - cap (cur s) ->
  names s m <> e.
Proof.
  intros S E W N1 N2 Q. destruct S. unfold cur, curh in *.
  pose proof (s_good0 (pred (nh s)) ltac:(lia)) as G. destruct G.
  pose proof (capp _ g_pow0) as P2. pose proof (g_win0 m W) as A. rewrite Q in A.
  apply N1. apply (pos_inj _ _ _ _ s_nodup0 P2 A E). unfold win in W. lia.
Qed.

Lemma cur_good s : structs s -> goodh (nb s) (names s) (pubs s) (gone s) (curh s) (cur s).
Proof. intros S. apply (s_good _ _ _ _ _ _ _ _ _ _ S). pose proof (s_nh _ _ _ _ _ _ _ _ _ _ S). unfold curh. lia. Qed.

Lemma pow_even m : 1 <= lb <= 6 -> uwrap 64 (B * m) <> INVALID.
Proof.
  intros HB. unfold uwrap, INVALID. intros E.
  assert (D : (2 | 2 ^ lb)). { exists (2 ^ (lb - 1)). rewrite Z.mul_comm, <- Z.pow_succ_r by lia. f_equal. lia. }
  assert (F : (2 ^ lb * m) mod 2 = 0). { apply Z.mod_divide; [lia|]. now apply Z.divide_mul_l. }
  assert (G : ((2 ^ lb * m) mod 2 ^ 64) mod 2 = (2 ^ lb * m) mod 2).
  { symmetry. apply Zmod_div_mod; [lia|lia|]. exists (2 ^ 63). reflexivity. }
  rewrite E, F in G. now compute in G.
Qed.

(** The slot computed by the reader. *)
Lemma slot_for_spec h i m : 1 <= lb <= 6 -> (exists a, 1 <= a <= 58 /\ cap h = 2 ^ a) -> 0 <= m - i / B < cap h ->
  slot_for B h i (pos h m) (uwrap 64 (B * m)) = pos h (i / B).
Proof.
  intros HB (a & R & E) M. unfold slot_for. rewrite E at 1. rewrite land_mask by lia.
  assert (PB : 0 < B) by (apply Z.pow_pos_nonneg; lia).
  assert (D : 2 ^ 64 = B * 2 ^ (64 - lb)) by (rewrite <- Z.pow_add_r by lia; f_equal; lia).
  assert (Base : Z.ldiff (uwrap 64 i) (B - 1) = uwrap 64 (B * (i / B))).
  { replace (B - 1) with (Z.ones lb) by (rewrite Z.ones_equiv; lia).
    rewrite Z.ldiff_ones_r by lia. rewrite Z.shiftl_mul_pow2, Z.shiftr_div_pow2 by lia.
    unfold uwrap. rewrite D. rewrite Z.mul_mod_distr_l by lia.
    rewrite Z.rem_mul_r by lia. rewrite (Z.add_comm (i mod B)), Z.mul_comm.
    rewrite (Z.mul_comm B ((i / B) mod _)) at 1. rewrite Z.div_add_l by lia. rewrite (Z.div_small (i mod B)) by (apply Z.mod_pos_bound; lia). lia. }
  rewrite Base.
  assert (Off : uwrap 64 (uwrap 64 (B * (i / B)) - uwrap 64 (B * m)) = B * ((i / B - m) mod 2 ^ (64 - lb))).
  { unfold uwrap. rewrite <- Zminus_mod. rewrite <- Z.mul_sub_distr_l. rewrite D. apply Z.mul_mod_distr_l; try lia. }
  rewrite Off. rewrite Z.mul_comm, Z.div_mul by lia.
  rewrite Z.add_mod by (rewrite <- E; pose proof (capp h ltac:(eauto)); lia).
  rewrite <- (Zmod_div_mod (2 ^ a) (2 ^ (64 - lb)) (i / B - m)).
  - rewrite <- Z.add_mod by (rewrite <- E; pose proof (capp h ltac:(eauto)); lia). rewrite <- E.
    rewrite pos_shift by (pose proof (capp h ltac:(eauto)); lia). f_equal. lia.
  - apply Z.pow_pos_nonneg; lia.
  - apply Z.pow_pos_nonneg; lia.
  - exists (2 ^ (64 - lb - a)). rewrite <- Z.pow_add_r by lia. f_equal. lia.
Qed.

End Inv.
