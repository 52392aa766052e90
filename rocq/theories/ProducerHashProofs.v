(** The invariant of the table of sub-queues. *)

From Coq Require Import ZArith List Lia Bool.
From Verif Require Import Base Bits ProducerHashModel.
Import ListNotations.
Open Scope Z_scope.

Section Proofs.
Context (tid : nat -> Z) (hash : Z -> Z) (k0 : Z).
Context (tid_inj : forall i j, tid i = tid j -> i = j) (tid_nz : forall i, tid i <> 0) (k0_range : 0 <= k0 <= 63).
Notation act := (act tid hash).

(** *** Positions *)
Definition pos (i : nat) (c d : Z) : Z := (hash (tid i) + d) mod c.
Lemma mask_mod t idx k : 0 <= k -> cap t = 2 ^ k -> mask t idx = idx mod cap t.
Proof. intros K E. unfold mask. rewrite E, <- Z.land_ones by lia. f_equal. now rewrite Z.ones_equiv. Qed.
Lemma pos_next i c d : 0 < c -> (pos i c d + 1) mod c = pos i c (d + 1).
Proof. intros C. unfold pos. rewrite Z.add_mod_idemp_l by lia. f_equal. lia. Qed.
Lemma pos_start i c : 0 < c -> hash (tid i) mod c = pos i c 0.
Proof. intros C. unfold pos. now rewrite Z.add_0_r. Qed.
Lemma pos_range i c d : 0 < c -> 0 <= pos i c d < c.
Proof. intros C. apply Z.mod_pos_bound. lia. Qed.
(** Every place is on the way. *)
Lemma pos_all i c a : 0 < c -> 0 <= a < c -> exists d, 0 <= d < c /\ a = pos i c d.
Proof.
  intros C A. exists ((a - hash (tid i)) mod c). split; [apply Z.mod_pos_bound; lia|]. unfold pos. rewrite Z.add_mod_idemp_r by lia.
  replace (hash (tid i) + (a - hash (tid i))) with a by lia. now rewrite Z.mod_small.
Qed.
Lemma room_less c k : 0 <= k -> c = 2 ^ k -> room c < c /\ 0 <= room c.
Proof.
  intros K ->. unfold room. rewrite !Z.shiftr_div_pow2 by lia. change (2 ^ 1) with 2. change (2 ^ 2) with 4. assert (0 < 2 ^ k) by (apply Z.pow_pos_nonneg; lia).
  pose proof (Z.div_mod (2 ^ k) 2 ltac:(lia)). pose proof (Z.div_mod (2 ^ k) 4 ltac:(lia)). pose proof (Z.mod_pos_bound (2 ^ k) 2 ltac:(lia)). pose proof (Z.mod_pos_bound (2 ^ k) 4 ltac:(lia)). lia.
Qed.
Lemma room_mono c c' : 0 <= c <= c' -> room c <= room c'.
Proof. intros C. unfold room. rewrite !Z.shiftr_div_pow2 by lia. apply Z.add_le_mono; apply Z.div_le_mono; lia. Qed.
Lemma half_room c n k : 0 <= k -> c = 2 ^ k -> n < Z.shiftr c 1 -> n < room c.
Proof. intros K -> H. unfold room. assert (0 <= Z.shiftr (2 ^ k) 2) by (apply Z.shiftr_nonneg; apply Z.pow_nonneg; lia). lia. Qed.
Lemma half_pow k : 1 <= k -> Z.shiftr (2 ^ k) 1 = 2 ^ (k - 1).
Proof. intros K. rewrite Z.shiftr_div_pow2 by lia. replace (2 ^ k) with (2 ^ (k - 1) * 2 ^ 1) by (rewrite <- Z.pow_add_r by lia; f_equal; lia). apply Z.div_mul. lia. Qed.
Lemma half_small k n : 0 <= k -> n < 2 ^ 62 -> Z.shiftr (2 ^ k) 1 <= n -> k <= 62.
Proof.
  intros K N H. destruct (Z.le_gt_cases k 62); [assumption|]. rewrite half_pow in H by lia. assert (2 ^ 62 <= 2 ^ (k - 1)) by (apply Z.pow_le_mono_r; lia). lia.
Qed.
Lemma double_pow k : 0 <= k <= 62 -> uwrap 64 (Z.shiftl (2 ^ k) 1) = 2 ^ (k + 1).
Proof.
  intros K. rewrite Z.shiftl_mul_pow2 by lia. rewrite <- Z.pow_add_r by lia. unfold uwrap. apply Z.mod_small. split; [apply Z.pow_nonneg; lia|]. apply Z.pow_lt_mono_r; lia.
Qed.
Lemma grown_ok n : n < 2 ^ 62 -> forall f j, 0 <= j <= 63 -> 63 <= j + Z.of_nat f -> exists j', grown f n (2 ^ j) = Some (2 ^ j') /\ j <= j' <= 63 /\ n < Z.shiftr (2 ^ j') 1.
Proof.
  intros N. induction f as [|f IH]; intros j J F; cbn [grown]; destruct (Z.ltb_spec n (Z.shiftr (2 ^ j) 1)); try (exists j; split; [reflexivity|]; lia).
  - exfalso. pose proof (half_small j n ltac:(lia) N ltac:(lia)). lia.
  - pose proof (half_small j n ltac:(lia) N ltac:(lia)). rewrite double_pow by lia. destruct (IH (j + 1) ltac:(lia) ltac:(lia)) as (j' & E & A & B). exists j'. split; [exact E|]. lia.
Qed.
Lemma find_empty (f : Z -> Z) : forall n, (exists a, 0 <= a < Z.of_nat n /\ f a = 0) \/ (forall a, 0 <= a < Z.of_nat n -> f a <> 0).
Proof.
  induction n as [|n [(a & A & E)|IH]]; [right; lia|left; exists a; lia|]. destruct (Z.eq_dec (f (Z.of_nat n)) 0); [left; exists (Z.of_nat n); lia|].
  right. intros a A. destruct (Z.eq_dec a (Z.of_nat n)) as [->|]; [assumption|]. apply IH. lia.
Qed.

(** *** The invariant: which sub-queue each thread has, and the tickets of the
    threads that have one or are about to *)
Section Inv.
Context (s : shared) (o : nat -> option nat) (T : list (nat * Z)).
Notation key m a := (key (tabs s m) a). Notation cap m := (cap (tabs s m)). Notation val m a := (val (tabs s m) a).
Definition small (x : Z) : list (nat * Z) := filter (fun y => snd y <=? x) T.
Record glob : Prop := {
  g_tabs : (1 <= ntabs s)%nat;
  g_cap : forall m, (m < ntabs s)%nat -> exists k, 0 <= k <= 63 /\ cap m = 2 ^ k;
  g_mono : forall m m', (m <= m' < ntabs s)%nat -> cap m <= cap m';
  g_key : forall m a, (m < ntabs s)%nat -> key m a <> 0 -> 0 <= a < cap m /\ exists i n, key m a = tid i /\ In (i, n) T /\ n < room (cap m);
  g_inj : forall i j p, o i = Some p -> o j = Some p -> i = j;
  g_made : forall i p, o i = Some p -> (p < made s)%nat;
  g_nodup : NoDup (map fst T);
  g_count : count s = Z.of_nat (length T);
  g_few : forall x, 0 <= x -> Z.of_nat (length (small x)) <= x }.

Definition absent (i : nat) (m : nat) : Prop := forall a, key m a <> tid i.
Definition none (i : nat) : Prop := o i = None /\ ~ In i (map fst T) /\ forall m, (m < ntabs s)%nat -> absent i m.
Definition pending (i : nat) (n : Z) : Prop := o i = None /\ In (i, n) T /\ forall m, (m < ntabs s)%nat -> absent i m.
Definition has (i : nat) : Prop := o i <> None /\ In i (map fst T) /\ exists m a, (m < ntabs s)%nat /\ key m a = tid i.
(** The way of a probe so far. *)
Definition way (i m : nat) (a d : Z) : Prop := 0 <= d /\ a = pos i (cap m) d /\ forall e, 0 <= e < d -> key m (pos i (cap m) e) <> 0 /\ key m (pos i (cap m) e) <> tid i.
Definition on_way (i m : nat) (idx : Z) : Prop := exists d, way i m (idx mod cap m) d.
Definition holds (p : pc) : Prop := match p with Reload _ | Alloc _ _ | Publish _ _ _ | Unlock _ _ | GiveUp true | GiveUpUnlock | Spin => True | _ => False end.
Definition writing (p : pc) (m : nat) (a : Z) : Prop :=
  match p with CopyVal m' a' _ | ProbeVal m' a' _ => m' = m /\ a' = a | _ => False end.
Definition at_pc (i : nat) (p : pc) : Prop :=
  match p with
  | Idle | Load => none i \/ has i
  | Look m h idx => (h <= m < ntabs s)%nat /\ (none i \/ has i) /\ (forall m', (h < m' < ntabs s)%nat -> absent i m') /\ on_way i h idx
  | Take m h a => (h <= m < ntabs s)%nat /\ has i /\ key h a = tid i /\ (forall m', (h < m' < ntabs s)%nat -> absent i m')
  | Copy m idx v => (m < ntabs s)%nat /\ has i /\ v = o i /\ absent i m /\ on_way i m idx /\ exists h a, (h < m)%nat /\ key h a = tid i
  | CopyCas m a v => (m < ntabs s)%nat /\ has i /\ v = o i /\ absent i m /\ (exists d, way i m a d) /\ exists h a, (h < m)%nat /\ key h a = tid i
  | CopyVal m a v => (m < ntabs s)%nat /\ has i /\ v = o i /\ key m a = tid i
  | Add m => (m < ntabs s)%nat /\ none i
  | Check m n | Lock m n | Fits m n => (m < ntabs s)%nat /\ pending i n
  | Create m n => (m < ntabs s)%nat /\ pending i n /\ n < room (cap m)
  | Reload n | Wait n => pending i n
  | Alloc m n => m = newest s /\ pending i n /\ Z.shiftr (cap m) 1 <= n
  | Publish m n c => m = newest s /\ pending i n /\ exists k, 0 <= k <= 63 /\ c = 2 ^ k /\ cap m <= c /\ n < Z.shiftr c 1
  | Unlock m n => (m < ntabs s)%nat /\ pending i n
  | Probe m idx p => (m < ntabs s)%nat /\ o i = Some p /\ (exists n, In (i, n) T /\ n < room (cap m)) /\ (forall m', (m' < ntabs s)%nat -> absent i m') /\ on_way i m idx
  | ProbeCas m a p => (m < ntabs s)%nat /\ o i = Some p /\ (exists n, In (i, n) T /\ n < room (cap m)) /\ (forall m', (m' < ntabs s)%nat -> absent i m') /\ exists d, way i m a d
  | ProbeVal m a p => (m < ntabs s)%nat /\ o i = Some p /\ has i /\ key m a = tid i
  | GiveUp _ => exists n, pending i n
  | GiveUpUnlock => none i
  | Spin => False
  | Ret None => none i
  | Ret (Some p) => has i /\ o i = Some p
  end.
Record thread_ok (i : nat) (p : pc) : Prop := {
  k_once : forall m a b, (m < ntabs s)%nat -> key m a = tid i -> key m b = tid i -> a = b;
  k_path : forall m a, (m < ntabs s)%nat -> key m a = tid i -> exists d, 0 <= d /\ a = pos i (cap m) d /\ forall e, 0 <= e < d -> key m (pos i (cap m) e) <> 0;
  k_val : forall m a, (m < ntabs s)%nat -> key m a = tid i -> (val m a = o i /\ o i <> None) \/ writing p m a;
  k_flag : holds p -> resizing s = true;
  k_at : at_pc i p }.
End Inv.

(** What the steps of the others do to what a thread knows. *)
Record evolves (i : nat) (s : shared) (o : nat -> option nat) (T : list (nat * Z)) (s' : shared) (o' : nat -> option nat) (T' : list (nat * Z)) : Prop := {
  e_tabs : (ntabs s <= ntabs s')%nat;
  e_cap : forall m, (m < ntabs s)%nat -> cap (tabs s' m) = cap (tabs s m);
  e_key : forall m a, (m < ntabs s)%nat -> key (tabs s m) a <> 0 -> key (tabs s' m) a = key (tabs s m) a;
  e_mine : forall m a, (m < ntabs s')%nat -> key (tabs s' m) a = tid i -> (m < ntabs s)%nat /\ key (tabs s m) a = tid i;
  e_val : forall m a, (m < ntabs s)%nat -> key (tabs s m) a = tid i -> val (tabs s' m) a = val (tabs s m) a;
  e_o : o' i = o i;
  e_T : forall n, In (i, n) T' <-> In (i, n) T }.
Lemma in_fst (T : list (nat * Z)) i : In i (map fst T) <-> exists n, In (i, n) T.
Proof. rewrite in_map_iff. split; [intros ([j n] & <- & H); eauto|intros (n & H); exists (i, n); auto]. Qed.
Lemma thread_stable i p s o T s' o' T' : (1 <= ntabs s)%nat -> evolves i s o T s' o' T' -> (holds p -> ntabs s' = ntabs s /\ resizing s' = resizing s) -> thread_ok s o T i p -> thread_ok s' o' T' i p.
Proof.
  intros N1 [ET EC EK EM EV EO ETT] HH [KO KP KV KF KA].
  assert (KEEP : forall m a, (m < ntabs s)%nat -> key (tabs s m) a = tid i -> key (tabs s' m) a = tid i) by (intros m a L E; rewrite EK; auto; rewrite E; apply tid_nz).
  assert (AB : forall m, (m < ntabs s)%nat -> absent s i m -> absent s' i m) by (intros m L A a E; apply EM in E; [destruct E as [_ E]; exact (A a E)|lia]).
  assert (AB2 : forall m, (ntabs s <= m < ntabs s')%nat -> absent s' i m) by (intros m L a E; apply EM in E; [lia|lia]).
  assert (ABS : (forall m, (m < ntabs s)%nat -> absent s i m) -> forall m, (m < ntabs s')%nat -> absent s' i m).
  { intros A m L. destruct (Nat.lt_ge_cases m (ntabs s)); [apply AB; auto|apply AB2; lia]. }
  assert (ABH : forall h, (forall m, (h < m < ntabs s)%nat -> absent s i m) -> forall m, (h < m < ntabs s')%nat -> absent s' i m).
  { intros h A m L. destruct (Nat.lt_ge_cases m (ntabs s)); [apply AB; auto; apply A; lia|apply AB2; lia]. }
  assert (FST : In i (map fst T') <-> In i (map fst T)) by (rewrite !in_fst; split; intros (n & H); exists n; now apply ETT).
  assert (NO : none s o T i -> none s' o' T' i) by (intros (A & B & C); split; [congruence|]; split; [rewrite FST; exact B|auto]).
  assert (PE : forall n, pending s o T i n -> pending s' o' T' i n) by (intros n (A & B & C); split; [congruence|]; split; [now apply ETT|auto]).
  assert (HA : has s o T i -> has s' o' T' i) by (intros (A & B & (m & a & L & E)); split; [congruence|]; split; [now rewrite FST|]; exists m, a; split; [lia|auto]).
  assert (WAY : forall m a d, (m < ntabs s)%nat -> way s i m a d -> way s' i m a d).
  { intros m a d L (A & B & C). split; [exact A|]. rewrite (EC m L). split; [exact B|]. intros e E. destruct (C e E) as [C1 C2]. rewrite (EK m _ L C1). auto. }
  assert (ONW : forall m idx, (m < ntabs s)%nat -> on_way s i m idx -> on_way s' i m idx) by (intros m idx L (d & W); exists d; rewrite (EC m L); now apply WAY).
  split.
  - intros m a b L E1 E2. apply EM in E1, E2; try exact L. destruct E1 as [L1 E1], E2 as [_ E2]. exact (KO m a b L1 E1 E2).
  - intros m a L E. apply EM in E; [|exact L]. destruct E as [L1 E]. destruct (KP m a L1 E) as (d & D & P & W). exists d. rewrite (EC m L1). split; [exact D|]. split; [exact P|].
    intros e R. rewrite (EK m _ L1 (W e R)). exact (W e R).
  - intros m a L E. apply EM in E; [|exact L]. destruct E as [L1 E]. rewrite (EV m a L1 E), EO. exact (KV m a L1 E).
  - intros H. destruct (HH H) as [_ ->]. exact (KF H).
  - assert (LT : forall m, (m < ntabs s)%nat -> (m < ntabs s')%nat) by (intros; lia).
    destruct p; cbn [at_pc holds] in KA, HH |- *; auto.
    + destruct KA; auto.
    + destruct KA; auto.
    + destruct KA as (A & B & C & D). split; [lia|]. split; [destruct B; auto|]. split; [now apply ABH|]. apply ONW; [lia|exact D].
    + destruct KA as (A & B & C & D). split; [lia|]. split; [auto|]. split; [apply KEEP; [lia|exact C]|]. now apply ABH.
    + destruct KA as (A & B & C & D & E & (h & b & F & G)). split; [lia|]. split; [auto|]. split; [congruence|]. split; [now apply AB|]. split; [now apply ONW|]. exists h, b. split; [exact F|]. apply KEEP; [lia|exact G].
    + destruct KA as (A & B & C & D & (d & E) & (h & b & F & G)). split; [lia|]. split; [auto|]. split; [congruence|]. split; [now apply AB|]. split; [exists d; now apply WAY|]. exists h, b. split; [exact F|]. apply KEEP; [lia|exact G].
    + destruct KA as (A & B & C & D). split; [lia|]. split; [auto|]. split; [congruence|]. now apply KEEP.
    + destruct KA. auto.
    + destruct KA. auto.
    + destruct KA. auto.
    + destruct KA as (A & B & C). destruct (HH I) as [H1 _]. assert (EN : newest s' = newest s) by (unfold newest; now rewrite H1). rewrite EN. split; [exact A|]. split; [auto|].
      rewrite (EC m); [exact C|]. rewrite A. unfold newest. lia.
    + destruct KA as (A & B & C). destruct (HH I) as [H1 _]. assert (EN : newest s' = newest s) by (unfold newest; now rewrite H1). rewrite EN. split; [exact A|]. split; [auto|].
      rewrite (EC m); [exact C|]. rewrite A. unfold newest. lia.
    + destruct KA. auto.
    + destruct KA. auto.
    + destruct KA as (A & B & C). rewrite (EC m A). auto.
    + destruct KA as (A & B & (n & C1 & C2) & D & E). split; [lia|]. split; [congruence|]. split; [exists n; rewrite (EC m A); split; [now apply ETT|exact C2]|]. split; [now apply ABS|now apply ONW].
    + destruct KA as (A & B & (n & C1 & C2) & D & (d & E)). split; [lia|]. split; [congruence|]. split; [exists n; rewrite (EC m A); split; [now apply ETT|exact C2]|]. split; [now apply ABS|exists d; now apply WAY].
    + destruct KA as (A & B & C & D). split; [lia|]. split; [congruence|]. split; [auto|]. now apply KEEP.
    + destruct KA as (n & A). exists n. auto.
    + destruct r; auto. destruct KA. split; [auto|congruence].
Qed.

(** *** The whole *)
Record good (l : list label) (c : config) (o : nat -> option nat) (T : list (nat * Z)) : Prop := {
  w_glob : glob (mem c) o T;
  w_thread : forall i, thread_ok (mem c) o T i (pcs c i);
  w_flag : forall i j, holds (pcs c i) -> holds (pcs c j) -> i = j;
  w_ticket : forall i n, In (i, n) T -> 1 <= n <= Z.of_nat (length l);
  w_len : Z.of_nat (length T) <= Z.of_nat (length l) }.

Lemma evolves_refl i s o T : evolves i s o T s o T.
Proof. split; auto; try tauto. Qed.
Lemma assemble l e c o T i s' p' o' T' : good l c o T -> glob s' o' T' -> thread_ok s' o' T' i p' ->
  (forall j, j <> i -> evolves j (mem c) o T s' o' T' /\ (holds (pcs c j) -> ntabs s' = ntabs (mem c) /\ resizing s' = resizing (mem c))) ->
  (holds p' -> forall j, j <> i -> ~ holds (pcs c j)) ->
  (forall j n, In (j, n) T' -> 1 <= n <= Z.of_nat (S (length l))) -> Z.of_nat (length T') <= Z.of_nat (S (length l)) ->
  good (l ++ [e]) (mkC s' (set_pc (pcs c) i p')) o' T'.
Proof.
  intros [G1 G2 G3 G4 G5] GL TO EV HO TI LE. assert (LN : length (l ++ [e]) = S (length l)) by (rewrite app_length; cbn; lia). split; cbn; rewrite ?LN; auto.
  - intros j. unfold set_pc. destruct (Nat.eqb_spec j i) as [->|N]; [exact TO|]. destruct (EV j N) as [E H]. eapply thread_stable; [apply G1|exact E|exact H|apply G2].
  - intros j k. unfold set_pc. destruct (Nat.eqb_spec j i) as [->|N], (Nat.eqb_spec k i) as [->|N']; auto; intros H1 H2; [destruct (HO H1 k N' H2)|destruct (HO H2 j N H1)].
Qed.
Lemma quiet l e c o T i p' : good l c o T -> at_pc (mem c) o T i p' -> (holds p' -> holds (pcs c i)) -> (forall m a, writing (pcs c i) m a -> writing p' m a) ->
  good (l ++ [e]) (mkC (mem c) (set_pc (pcs c) i p')) o T.
Proof.
  intros G AT HO WR. pose proof (w_thread _ _ _ _ G i) as [KO KP KV KF KA]. eapply assemble; [exact G|apply G| | | | |].
  - split; auto. intros m a L E. destruct (KV m a L E); auto.
  - intros j N. split; [apply evolves_refl|auto].
  - intros H j N H2. apply N. exact (w_flag _ _ _ _ G j i H2 (HO H)).
  - intros j n H. pose proof (w_ticket _ _ _ _ G j n H). lia.
  - pose proof (w_len _ _ _ _ G). lia.
Qed.
(** There is room in every table. *)
Lemma few_sub (T : list (nat * Z)) (x : Z) : (length (filter (fun y => (snd y <? x)%Z) T) <= length (filter (fun y => (snd y <=? Z.max 0 (x - 1))%Z) T))%nat.
Proof.
  induction T as [|[j n] T IH]; cbn; [lia|]. destruct (Z.ltb_spec n x), (Z.leb_spec n (Z.max 0 (x - 1))); cbn; try lia.
Qed.
Lemma nodup_map_in {A B} (f : A -> B) (l : list A) : (forall a b, In a l -> In b l -> f a = f b -> a = b) -> NoDup l -> NoDup (map f l).
Proof.
  induction l as [|x l IH]; cbn; intros J ND; [constructor|]. inversion ND; subst. constructor; [|apply IH; auto]. intros I. apply in_map_iff in I. destruct I as (y & E & Y).
  rewrite (J y x) in Y; auto.
Qed.
Lemma empty_place l c o T m : good l c o T -> (m < ntabs (mem c))%nat -> exists a, 0 <= a < cap (tabs (mem c) m) /\ key (tabs (mem c) m) a = 0.
Proof.
  intros G L. pose proof (w_glob _ _ _ _ G) as GL. destruct (g_cap _ _ _ GL m L) as (k & K & CE). assert (0 < cap (tabs (mem c) m)) by (rewrite CE; apply Z.pow_pos_nonneg; lia).
  destruct (find_empty (key (tabs (mem c) m)) (Z.to_nat (cap (tabs (mem c) m)))) as [(a & A & E)|F]; [exists a; rewrite Z2Nat.id in A by lia; auto|exfalso].
  set (N := Z.to_nat (cap (tabs (mem c) m))) in *. set (ks := map (fun n => key (tabs (mem c) m) (Z.of_nat n)) (seq 0 N)).
  assert (FN : forall n, (n < N)%nat -> key (tabs (mem c) m) (Z.of_nat n) <> 0) by (intros n X; apply F; lia).
  assert (IN : incl ks (map (fun y => tid (fst y)) (filter (fun y => snd y <? room (cap (tabs (mem c) m))) T))).
  { intros x X. apply in_map_iff in X. destruct X as (n & <- & X). apply in_seq in X. destruct (g_key _ _ _ GL m (Z.of_nat n) L (FN n ltac:(lia))) as (_ & i & t & E & I & R).
    apply in_map_iff. exists (i, t). split; [now rewrite E|]. apply filter_In. split; [exact I|]. cbn. lia. }
  assert (ND : NoDup ks).
  { unfold ks. apply nodup_map_in; [|apply seq_NoDup]. intros a b A B E. apply in_seq in A, B.
    destruct (g_key _ _ _ GL m (Z.of_nat a) L (FN a ltac:(lia))) as (_ & i & t & EI & _). pose proof (k_once _ _ _ _ _ (w_thread _ _ _ _ G i) m _ _ L EI (eq_trans (eq_sym E) EI)). lia. }
  pose proof (NoDup_incl_length ND IN) as LE. unfold ks in LE. rewrite !map_length, seq_length in LE. pose proof (few_sub T (room (cap (tabs (mem c) m)))) as FS.
  pose proof (g_few _ _ _ GL (Z.max 0 (room (cap (tabs (mem c) m)) - 1)) ltac:(lia)) as FW. unfold small in FW. destruct (room_less _ k ltac:(lia) CE). lia.
Qed.
(** A free place is taken. *)
Lemma key_written l e c o T i m a d n p' : good l c o T -> (m < ntabs (mem c))%nat -> key (tabs (mem c) m) a = 0 -> absent (mem c) i m -> way (mem c) i m a d -> In (i, n) T -> n < room (cap (tabs (mem c) m)) ->
  let s' := set_tab (mem c) m (set_key (tabs (mem c) m) a (tid i)) in
  (forall m' b, ~ writing (pcs c i) m' b) -> ~ holds p' -> (forall m' b, writing p' m' b <-> (m' = m /\ b = a)) -> at_pc s' o T i p' -> good (l ++ [e]) (mkC s' (set_pc (pcs c) i p')) o T.
Proof.
  intros G L KZ AB WY TI RM s' NW NH WR AT. pose proof (w_glob _ _ _ _ G) as GL. pose proof (w_thread _ _ _ _ G i) as [KO KP KV KF KA].
  destruct (g_cap _ _ _ GL m L) as (k & K & CE). assert (CP : 0 < cap (tabs (mem c) m)) by (rewrite CE; apply Z.pow_pos_nonneg; lia).
  assert (CAP : forall m', cap (tabs s' m') = cap (tabs (mem c) m')) by (intros m'; cbn; destruct (Nat.eqb_spec m' m) as [->|]; reflexivity).
  assert (VAL : forall m', val (tabs s' m') = val (tabs (mem c) m')) by (intros m'; cbn; destruct (Nat.eqb_spec m' m) as [->|]; reflexivity).
  assert (KEY : forall m' b, key (tabs s' m') b = if (Nat.eqb m' m && (b =? a))%bool then tid i else key (tabs (mem c) m') b).
  { intros m' b. cbn. destruct (Nat.eqb_spec m' m) as [->|]; cbn; [destruct (b =? a); reflexivity|reflexivity]. }
  assert (KEYS : forall m' b, key (tabs (mem c) m') b <> 0 -> key (tabs s' m') b = key (tabs (mem c) m') b).
  { intros m' b NZ. rewrite KEY. destruct (Nat.eqb_spec m' m) as [->|]; cbn; [destruct (Z.eqb_spec b a) as [->|]; [contradiction|reflexivity]|reflexivity]. }
  destruct WY as (D & PA & WY).
  eapply assemble; [exact G| | | | | |].
  - destruct GL as [A1 A2 A3 A4 A5 A6 A7 A8 A9]. split; auto.
    + intros m' L'. rewrite CAP. auto.
    + intros m1 m2 L'. rewrite !CAP. auto.
    + intros m' b L' NZ. rewrite CAP. rewrite KEY in NZ |- *. destruct (Nat.eqb_spec m' m) as [->|]; cbn in *; [|auto]. destruct (Z.eqb_spec b a) as [->|]; [|auto].
      split; [rewrite PA; now apply pos_range|]. exists i, n. auto.
  - split.
    + intros m' b1 b2 L' E1 E2. rewrite KEY in E1, E2. destruct (Nat.eqb_spec m' m) as [->|]; cbn in E1, E2; [|exact (KO m' b1 b2 L' E1 E2)].
      destruct (Z.eqb_spec b1 a), (Z.eqb_spec b2 a); try congruence; first [destruct (AB b2 E2)|destruct (AB b1 E1)].
    + intros m' b L' E. rewrite KEY in E. rewrite CAP. destruct (Nat.eqb m' m && (b =? a))%bool eqn:Q.
      * apply andb_true_iff in Q. destruct Q as [Q1 Q2]. apply Nat.eqb_eq in Q1. apply Z.eqb_eq in Q2. subst m' b. exists d. split; [exact D|]. split; [exact PA|]. intros x X. destruct (WY x X) as [W1 _]. rewrite KEYS; exact W1.
      * destruct (KP m' b L' E) as (d' & D' & P' & W'). exists d'. split; [exact D'|]. split; [exact P'|]. intros x X. rewrite KEYS; exact (W' x X).
    + intros m' b L' E. rewrite VAL. rewrite KEY in E. destruct (Nat.eqb m' m && (b =? a))%bool eqn:Q.
      * apply andb_true_iff in Q. destruct Q as [Q1 Q2]. apply Nat.eqb_eq in Q1. apply Z.eqb_eq in Q2. right. apply WR. auto.
      * destruct (KV m' b L' E) as [V|W]; [auto|destruct (NW _ _ W)].
    + intros H. destruct (NH H).
    + exact AT.
  - intros j NJ. split; [|auto]. split; auto; try (cbn; lia); try tauto.
    + intros m' b L' E. rewrite KEY in E. split; [exact L'|]. destruct (Nat.eqb m' m && (b =? a))%bool; [apply tid_inj in E; congruence|exact E].
    + intros m' b L' E. now rewrite VAL.
  - intros H. destruct (NH H).
  - intros j x H. pose proof (w_ticket _ _ _ _ G j x H). lia.
  - pose proof (w_len _ _ _ _ G). lia.
Qed.
(** Its value is written. *)
Lemma val_written l e c o T i m a v p' : good l c o T -> (m < ntabs (mem c))%nat -> key (tabs (mem c) m) a = tid i -> v = o i -> o i <> None ->
  let s' := set_tab (mem c) m (set_val (tabs (mem c) m) a v) in
  (forall m' b, writing (pcs c i) m' b -> m' = m /\ b = a) -> ~ holds p' -> at_pc s' o T i p' -> good (l ++ [e]) (mkC s' (set_pc (pcs c) i p')) o T.
Proof.
  intros G L KM VO ON s' NW NH AT. pose proof (w_glob _ _ _ _ G) as GL. pose proof (w_thread _ _ _ _ G i) as [KO KP KV KF KA].
  assert (CAP : forall m', cap (tabs s' m') = cap (tabs (mem c) m')) by (intros m'; cbn; destruct (Nat.eqb_spec m' m) as [->|]; reflexivity).
  assert (KEY : forall m', key (tabs s' m') = key (tabs (mem c) m')) by (intros m'; cbn; destruct (Nat.eqb_spec m' m) as [->|]; reflexivity).
  assert (VAL : forall m' b, val (tabs s' m') b = if (Nat.eqb m' m && (b =? a))%bool then v else val (tabs (mem c) m') b).
  { intros m' b. cbn. destruct (Nat.eqb_spec m' m) as [->|]; cbn; [destruct (b =? a); reflexivity|reflexivity]. }
  eapply assemble; [exact G| | | | | |].
  - destruct GL as [A1 A2 A3 A4 A5 A6 A7 A8 A9]. split; auto.
    + intros m' L'. rewrite CAP. auto. + intros m1 m2 L'. rewrite !CAP. auto. + intros m' b L' NZ. rewrite CAP. rewrite KEY in NZ |- *. auto.
  - split.
    + intros m' b1 b2 L'. rewrite KEY. exact (KO m' b1 b2 L').
    + intros m' b L'. rewrite KEY, CAP. exact (KP m' b L').
    + intros m' b L' E. rewrite KEY in E. rewrite VAL. left. destruct (Nat.eqb m' m && (b =? a))%bool eqn:Q; [auto|].
      destruct (KV m' b L' E) as [V|W]; [exact V|]. apply NW in W. destruct W as [-> ->]. rewrite Nat.eqb_refl, Z.eqb_refl in Q. discriminate.
    + intros H. destruct (NH H).
    + exact AT.
  - intros j NJ. split; [|auto]. split; auto; try (cbn; lia); try tauto.
    + intros m' b L' E. now rewrite KEY.
    + intros m' b L' E. rewrite KEY in E. auto.
    + intros m' b L' E. rewrite VAL. destruct (Nat.eqb m' m && (b =? a))%bool eqn:Q; [|reflexivity]. apply andb_true_iff in Q. destruct Q as [Q1 Q2]. apply Nat.eqb_eq in Q1. apply Z.eqb_eq in Q2. subst m' b.
      rewrite KM in E. apply tid_inj in E. congruence.
  - intros H. destruct (NH H).
  - intros j x H. pose proof (w_ticket _ _ _ _ G j x H). lia.
  - pose proof (w_len _ _ _ _ G). lia.
Qed.
(** Nothing but the flag, the counter, the tickets and the sub-queues. *)
Lemma at_same s s' o T i p : tabs s' = tabs s -> ntabs s' = ntabs s -> at_pc s o T i p -> at_pc s' o T i p.
Proof. destruct s, s'. cbn. intros -> -> H. exact H. Qed.
Lemma flag_written l e c o T i (b : bool) p' : good l c o T -> (forall m a, ~ writing (pcs c i) m a) -> at_pc (mem c) o T i p' ->
  (if b then resizing (mem c) = false else holds (pcs c i) /\ ~ holds p') -> good (l ++ [e]) (mkC (set_flag (mem c) b) (set_pc (pcs c) i p')) o T.
Proof.
  intros G NW AT HB. pose proof (w_glob _ _ _ _ G) as GL. pose proof (w_thread _ _ _ _ G i) as [KO KP KV KF KA].
  assert (NOT : forall j, j <> i -> ~ holds (pcs c j)).
  { intros j N H. destruct b; [pose proof (k_flag _ _ _ _ _ (w_thread _ _ _ _ G j) H); congruence|]. apply N. exact (w_flag _ _ _ _ G j i H (proj1 HB)). }
  eapply assemble; [exact G| | | | | |].
  - destruct GL as [A1 A2 A3 A4 A5 A6 A7 A8 A9]. split; auto.
  - split; auto.
    + intros m a L E. destruct (KV m a L E) as [V|W]; [auto|destruct (NW _ _ W)].
    + intros H. cbn. destruct b; [reflexivity|]. destruct HB as [_ HB]. destruct (HB H).
  - intros j N. split; [split; auto; try (cbn; lia); tauto|]. intros H. destruct (NOT j N H).
  - intros _. exact NOT.
  - intros j x H. pose proof (w_ticket _ _ _ _ G j x H). lia.
  - pose proof (w_len _ _ _ _ G). lia.
Qed.
(** A ticket is taken. *)
Lemma few_cons (T : list (nat * Z)) i x : (forall y, 0 <= y -> Z.of_nat (length (small T y)) <= y) -> x = 1 + Z.of_nat (length T) -> forall y, 0 <= y -> Z.of_nat (length (small ((i, x) :: T) y)) <= y.
Proof.
  intros F -> y Y. unfold small in *. cbn [filter snd]. destruct (Z.leb_spec (1 + Z.of_nat (length T)) y); [|apply F; lia]. cbn [length]. assert (length (filter (fun z => (snd z <=? y)%Z) T) <= length T)%nat by (clear; induction T as [|z T IH]; cbn; [lia|]; destruct (snd z <=? y); cbn; lia). lia.
Qed.
Lemma ticket_taken l e c o T i m : good l c o T -> Z.of_nat (length l) < 2 ^ 62 -> pcs c i = Add m ->
  let n := uwrap 64 (1 + count (mem c)) in good (l ++ [e]) (mkC (set_count (mem c) n) (set_pc (pcs c) i (Check m n))) o ((i, n) :: T).
Proof.
  intros G B E n. pose proof (w_glob _ _ _ _ G) as GL. pose proof (w_thread _ _ _ _ G i) as [KO KP KV KF KA]. rewrite E in *. destruct KA as (L & ON & NI & AB).
  pose proof (w_len _ _ _ _ G) as LE. assert (NE : n = 1 + Z.of_nat (length T)). { unfold n, uwrap. rewrite (g_count _ _ _ GL). apply Z.mod_small. assert (2 ^ 62 < 2 ^ 64) by (apply Z.pow_lt_mono_r; lia). lia. }
  eapply assemble; [exact G| | | | | |].
  - destruct GL as [A1 A2 A3 A4 A5 A6 A7 A8 A9]. split; auto.
    + intros m' a L' NZ. destruct (A4 m' a L' NZ) as (R & j & t & E1 & E2 & E3). split; [exact R|]. exists j, t. cbn. auto.
    + cbn. constructor; auto.
    + cbn. lia.
    + now apply few_cons.
  - split; [exact KO|exact KP| | |].
    + intros m' a L' E'. destruct (AB m' L' a E').
    + intros [].
    + cbn. split; [exact L|]. split; [exact ON|]. split; [cbn; auto|exact AB].
  - intros j NJ. split; [split; auto; try (cbn; lia); try tauto|auto]. intros x. cbn. split; [intros [H|H]; [congruence|exact H]|auto].
  - intros [].
  - intros j x [H|H]; [injection H as <- <-; lia|]. pose proof (w_ticket _ _ _ _ G j x H). lia.
  - cbn [length]. lia.
Qed.
(** A ticket is given back. *)
Lemma drop_len (T : list (nat * Z)) i : NoDup (map fst T) -> In i (map fst T) -> length T = S (length (filter (fun y => negb (Nat.eqb (fst y) i)) T)).
Proof.
  induction T as [|[j x] T IH]; cbn; intros ND I; [destruct I|]. inversion ND; subst. destruct (Nat.eqb_spec j i) as [->|N]; cbn.
  - f_equal. symmetry. f_equal. clear - H1. induction T as [|[k y] T IH]; cbn in *; [reflexivity|]. destruct (Nat.eqb_spec k i); cbn; [tauto|]. f_equal. tauto.
  - f_equal. apply IH; auto. destruct I; [congruence|assumption].
Qed.
Lemma few_filter (T : list (nat * Z)) f y : (length (small (filter f T) y) <= length (small T y))%nat.
Proof. unfold small. induction T as [|z T IH]; cbn; [lia|]. destruct (f z); cbn; destruct (snd z <=? y); cbn; lia. Qed.
Lemma ticket_back l e c o T i b : good l c o T -> Z.of_nat (length l) < 2 ^ 62 -> pcs c i = GiveUp b ->
  good (l ++ [e]) (mkC (set_count (mem c) (uwrap 64 (count (mem c) - 1))) (set_pc (pcs c) i (if b then GiveUpUnlock else Ret None))) o (filter (fun y => negb (Nat.eqb (fst y) i)) T).
Proof.
  intros G B E. pose proof (w_glob _ _ _ _ G) as GL. pose proof (w_thread _ _ _ _ G i) as [KO KP KV KF KA]. rewrite E in *. destruct KA as (n & ON & NI & AB).
  pose proof (w_len _ _ _ _ G) as LE. pose proof (drop_len T i (g_nodup _ _ _ GL) (proj2 (in_fst T i) (ex_intro _ n NI))) as DL.
  set (T' := filter (fun y => negb (Nat.eqb (fst y) i)) T) in *.
  assert (IN : forall j x, In (j, x) T' <-> In (j, x) T /\ j <> i). { intros j x. unfold T'. rewrite filter_In. cbn. rewrite negb_true_iff, Nat.eqb_neq. tauto. }
  assert (NA : none (mem c) o T' i). { split; [exact ON|]. split; [|exact AB]. rewrite in_fst. intros (x & H). apply IN in H. tauto. }
  eapply assemble; [exact G| | | | | |].
  - destruct GL as [A1 A2 A3 A4 A5 A6 A7 A8 A9]. split; auto.
    + intros m' a L' NZ. destruct (A4 m' a L' NZ) as (R & j & t & E1 & E2 & E3). split; [exact R|]. exists j, t. split; [exact E1|]. split; [|exact E3]. apply IN. split; [exact E2|]. intros ->. exact (AB m' L' a E1).
    + unfold T'. clear - A7. induction T as [|[k x] T IH]; cbn; [constructor|]. cbn in A7. inversion A7; subst. destruct (negb (Nat.eqb k i)); cbn; auto. constructor; auto.
      intros H. apply H1. apply in_map_iff in H. destruct H as (z & <- & H). apply filter_In in H. apply in_map. tauto.
    + cbn. unfold uwrap. rewrite A8. assert (2 ^ 62 < 2 ^ 64) by (apply Z.pow_lt_mono_r; lia). rewrite Z.mod_small; lia.
    + intros y Y. pose proof (A9 y Y). pose proof (few_filter T (fun y => negb (Nat.eqb (fst y) i)) y). fold T' in H0. lia.
  - split; [exact KO|exact KP| | |].
    + intros m' a L' E'. destruct (AB m' L' a E').
    + intros H. cbn. apply KF. destruct b; [exact I|destruct H].
    + destruct b; cbn; exact NA.
  - intros j NJ. split; [split; auto; try (cbn; lia); try tauto|auto]. intros x. rewrite IN. tauto.
  - intros H j NJ H2. apply NJ. apply (w_flag _ _ _ _ G j i H2). rewrite E. destruct b; [exact I|destruct H].
  - intros j x H. apply IN in H. destruct H as [H _]. pose proof (w_ticket _ _ _ _ G j x H). lia.
  - lia.
Qed.
(** A table is published. *)
Lemma published l e c o T i m n cp : good l c o T -> pcs c i = Publish m n cp ->
  good (l ++ [e]) (mkC (fst (act true i (Publish m n cp) (mem c))) (set_pc (pcs c) i (Unlock (S m) n))) o T.
Proof.
  intros G E. pose proof (w_glob _ _ _ _ G) as GL. pose proof (w_thread _ _ _ _ G i) as [KO KP KV KF KA]. rewrite E in *. destruct KA as (ME & (ON & TI & AB) & k & K & CK & CL & NH).
  pose proof (g_tabs _ _ _ GL) as T1. assert (NT : ntabs (mem c) = S m) by (rewrite ME; unfold newest; lia). cbn [ProducerHashModel.act fst].
  set (s' := mkS _ _ _ _ _). assert (OLD : forall j, (j < S m)%nat -> tabs s' j = tabs (mem c) j) by (intros j J; cbn; destruct (Nat.eqb_spec j (S m)); [lia|reflexivity]).
  assert (NEW : tabs s' (S m) = mkTab cp (fun _ => 0) (fun _ => None)) by (cbn; now rewrite Nat.eqb_refl).
  assert (CASE : forall j, (j < S (S m))%nat -> j = S m \/ (j < S m)%nat) by (intros; lia).
  assert (MINE : forall j m' a, (m' < S (S m))%nat -> key (tabs s' m') a = tid j -> (m' < S m)%nat /\ key (tabs (mem c) m') a = tid j).
  { intros j m' a L' E'. destruct (CASE m' L') as [->|L2]; [rewrite NEW in E'; cbn in E'; symmetry in E'; destruct (tid_nz _ E')|rewrite OLD in E' by exact L2; auto]. }
  eapply assemble; [exact G| | | | | |].
  - destruct GL as [A1 A2 A3 A4 A5 A6 A7 A8 A9]. rewrite NT in *. split; auto.
    + cbn. lia.
    + intros m' L'. destruct (CASE m' L') as [->|L2]; [rewrite NEW; cbn; eauto|rewrite OLD by exact L2; auto].
    + intros m1 m2 L'. cbn [ntabs s'] in L'. destruct (CASE m2 ltac:(lia)) as [->|L2]; [|rewrite !OLD by lia; apply A3; lia].
      destruct (CASE m1 ltac:(lia)) as [->|L3]; [lia|]. rewrite NEW, OLD by lia. cbn. etransitivity; [|exact CL]. apply A3. lia.
    + intros m' a L' NZ. destruct (CASE m' L') as [->|L2]; [rewrite NEW in NZ; cbn in NZ; contradiction|rewrite OLD in * by exact L2; auto].
  - rewrite NT in *. split.
    + intros m' a b L' E1 E2. destruct (MINE _ _ _ L' E1) as [L1 E1'], (MINE _ _ _ L' E2) as [_ E2']. eauto.
    + intros m' a L' E1. destruct (MINE _ _ _ L' E1) as [L1 E1']. rewrite OLD by exact L1. auto.
    + intros m' a L' E1. destruct (MINE _ _ _ L' E1) as [L1 E1']. destruct (AB m' L1 a E1').
    + intros _. cbn. apply KF. exact I.
    + cbn. split; [lia|]. split; [exact ON|]. split; [exact TI|]. intros m' L' a E1. destruct (MINE _ _ _ L' E1) as [L1 E1']. exact (AB m' L1 a E1').
  - intros j NJ. split; [|intros H; destruct NJ; apply (w_flag _ _ _ _ G j i H); rewrite E; exact I]. split; rewrite ?NT.
    + cbn. lia.
    + intros m' L'. now rewrite OLD.
    + intros m' a L' _. now rewrite OLD.
    + intros m' a L' E1. cbn [ntabs s'] in L'. exact (MINE _ _ _ L' E1).
    + intros m' a L' _. now rewrite OLD.
    + reflexivity.
    + tauto.
  - intros _ j NJ H. apply NJ. apply (w_flag _ _ _ _ G j i H). rewrite E. exact I.
  - intros j x H. pose proof (w_ticket _ _ _ _ G j x H). lia.
  - pose proof (w_len _ _ _ _ G). lia.
Qed.
(** A sub-queue is made. *)
Definition given (o : nat -> option nat) (i q : nat) : nat -> option nat := fun j => if Nat.eqb j i then Some q else o j.
Lemma created l e c o T i m n : good l c o T -> pcs c i = Create m n ->
  good (l ++ [e]) (mkC (fst (act true i (Create m n) (mem c))) (set_pc (pcs c) i (Probe m (hash (tid i)) (made (mem c))))) (given o i (made (mem c))) T.
Proof.
  intros G E. pose proof (w_glob _ _ _ _ G) as GL. pose proof (w_thread _ _ _ _ G i) as [KO KP KV KF KA]. rewrite E in *. destruct KA as (L & (ON & TI & AB) & R). cbn [ProducerHashModel.act fst].
  set (s' := mkS _ _ _ _ _). assert (OI : given o i (made (mem c)) i = Some (made (mem c))) by (unfold given; now rewrite Nat.eqb_refl).
  assert (OJ : forall j, j <> i -> given o i (made (mem c)) j = o j) by (intros j N; unfold given; destruct (Nat.eqb_spec j i); [contradiction|reflexivity]).
  destruct (g_cap _ _ _ GL m L) as (k & K & CE). assert (CP : 0 < cap (tabs (mem c) m)) by (rewrite CE; apply Z.pow_pos_nonneg; lia).
  eapply assemble; [exact G| | | | | |].
  - destruct GL as [A1 A2 A3 A4 A5 A6 A7 A8 A9]. split; auto.
    + intros x y q. unfold given. destruct (Nat.eqb_spec x i), (Nat.eqb_spec y i); subst; auto; intros H1 H2; [injection H1 as <-; apply A6 in H2; lia|injection H2 as <-; apply A6 in H1; lia|eauto].
    + intros x q. unfold given. destruct (Nat.eqb_spec x i); intros H; [injection H as <-; cbn; lia|]. apply A6 in H. cbn. lia.
  - split; [exact KO|exact KP| | |].
    + intros m' a L' E1. destruct (AB m' L' a E1).
    + intros [].
    + cbn. split; [exact L|]. split; [exact OI|]. split; [eauto|]. split; [exact AB|]. exists 0. split; [lia|]. split; [apply pos_start; exact CP|]. intros; lia.
  - intros j NJ. split; [split; auto; try (cbn; lia); try tauto|auto].
  - intros [].
  - intros j x H. pose proof (w_ticket _ _ _ _ G j x H). lia.
  - pose proof (w_len _ _ _ _ G). lia.
Qed.

(** *** Every step *)
Lemma way_next s i m a d : (exists k, 0 <= k <= 63 /\ cap (tabs s m) = 2 ^ k) -> way s i m a d -> key (tabs s m) a <> 0 -> absent s i m -> on_way s i m (a + 1).
Proof.
  intros (k & K & CE) (D & P & W) NZ AB. assert (0 < cap (tabs s m)) by (rewrite CE; apply Z.pow_pos_nonneg; lia). exists (d + 1). split; [lia|]. split; [rewrite P; now apply pos_next|].
  intros e E. destruct (Z.eq_dec e d) as [->|]; [rewrite <- P; split; [exact NZ|apply AB]|apply W; lia].
Qed.
Lemma way_next2 s i m a d : (exists k, 0 <= k <= 63 /\ cap (tabs s m) = 2 ^ k) -> way s i m a d -> key (tabs s m) a <> 0 -> key (tabs s m) a <> tid i -> on_way s i m (a + 1).
Proof.
  intros (k & K & CE) (D & P & W) NZ AB. assert (0 < cap (tabs s m)) by (rewrite CE; apply Z.pow_pos_nonneg; lia). exists (d + 1). split; [lia|]. split; [rewrite P; now apply pos_next|].
  intros e E. destruct (Z.eq_dec e d) as [->|]; [rewrite <- P; split; [exact NZ|apply AB]|apply W; lia].
Qed.
Lemma way_start s i m : (exists k, 0 <= k <= 63 /\ cap (tabs s m) = 2 ^ k) -> on_way s i m (hash (tid i)).
Proof. intros (k & K & CE). assert (0 < cap (tabs s m)) by (rewrite CE; apply Z.pow_pos_nonneg; lia). exists 0. split; [lia|]. split; [now apply pos_start|]. intros; lia. Qed.
Lemma way_mask s i m idx : (exists k, 0 <= k <= 63 /\ cap (tabs s m) = 2 ^ k) -> on_way s i m idx -> exists d, way s i m (mask (tabs s m) idx) d.
Proof. intros (k & K & CE) (d & W). exists d. rewrite (mask_mod _ _ k) by (lia || exact CE). exact W. Qed.
(** The way to a free place passes nobody's own entry. *)
Lemma empty_absent s o T i p m a d : thread_ok s o T i p -> (m < ntabs s)%nat -> way s i m a d -> key (tabs s m) a = 0 -> absent s i m.
Proof.
  intros [_ KP _ _ _] L (D & P & W) Z0 b E. destruct (KP m b L E) as (d' & D' & P' & W'). destruct (Z.lt_trichotomy d d') as [H|[->|H]].
  - apply (W' d); [lia|]. now rewrite <- P.
  - rewrite P', <- P, Z0 in E. exact (tid_nz _ (eq_sym E)).
  - destruct (W d' ltac:(lia)) as [_ W2]. apply W2. now rewrite <- P'.
Qed.

Definition later (i : nat) (s : shared) (o : nat -> option nat) (s' : shared) (o' : nat -> option nat) : Prop :=
  (o' = o /\ made s' = made s) \/ (o i = None /\ o' = given o i (made s) /\ made s' = S (made s)).
Lemma inside_good l c o T i ok s p : good l c o T -> Z.of_nat (length l) < 2 ^ 62 -> busy (pcs c i) -> act ok i (pcs c i) (mem c) = (s, p) ->
  exists o' T', good (l ++ [Inside i ok]) (mkC s (set_pc (pcs c) i p)) o' T' /\ later i (mem c) o s o'.
Proof.
  intros G B BU A. pose proof (w_glob _ _ _ _ G) as GL. pose proof (w_thread _ _ _ _ G i) as TO. pose proof (k_at _ _ _ _ _ TO) as KA. pose proof (g_tabs _ _ _ GL) as T1.
  assert (CAPS : forall m, (m < ntabs (mem c))%nat -> exists k, 0 <= k <= 63 /\ cap (tabs (mem c) m) = 2 ^ k) by (apply GL).
  assert (Q : forall p', s = mem c -> p = p' -> at_pc (mem c) o T i p' -> (holds p' -> holds (pcs c i)) -> (forall m a, writing (pcs c i) m a -> writing p' m a) ->
    exists o' T', good (l ++ [Inside i ok]) (mkC s (set_pc (pcs c) i p)) o' T' /\ later i (mem c) o s o').
  { intros p' -> -> H1 H2 H3. exists o, T. split; [now apply quiet|left; auto]. }
  remember (pcs c i) as pi eqn:PI. symmetry in PI. destruct pi; cbn [ProducerHashModel.act at_pc holds writing] in *; try (destruct BU; fail).
  - (* Load *) injection A as <- <-. eapply Q; try reflexivity; try tauto; try (intros []). cbn. unfold newest. split; [lia|]. split; [exact KA|]. split; [intros; lia|]. apply way_start, CAPS. lia.
  - (* Look *) destruct KA as (L & NH & AB & ON). assert (LH : (h < ntabs (mem c))%nat) by lia. destruct (way_mask _ _ _ _ (CAPS h LH) ON) as (d & W).
    destruct (Z.eqb_spec (key (tabs (mem c) h) (mask (tabs (mem c) h) idx)) (tid i)) as [KE|KN].
    + injection A as <- <-. eapply Q; try reflexivity; try tauto; try (intros []). cbn. split; [exact L|]. split; [|auto]. destruct NH as [(_ & _ & N)|H]; [destruct (N h LH _ KE)|exact H].
    + destruct (Z.eqb_spec (key (tabs (mem c) h) (mask (tabs (mem c) h) idx)) 0) as [KZ|KNZ].
      * pose proof (empty_absent _ _ _ _ _ _ _ _ TO LH W KZ) as AH. destruct h as [|h]; injection A as <- <-.
        -- eapply Q; try reflexivity; try tauto; try (intros []). cbn. split; [lia|]. destruct NH as [N|(_ & _ & (m' & b & L' & E'))]; [exact N|]. exfalso. destruct m' as [|m']; [exact (AH b E')|]. apply (AB (S m') ltac:(lia) b E').
        -- eapply Q; try reflexivity; try tauto; try (intros []). cbn. split; [lia|]. split; [exact NH|]. split; [|apply way_start, CAPS; lia]. intros m' L'. destruct (Nat.eq_dec m' (S h)) as [->|]; [exact AH|apply AB; lia].
      * injection A as <- <-. eapply Q; try reflexivity; try tauto; try (intros []). cbn. split; [lia|]. split; [exact NH|]. split; [exact AB|]. eapply way_next2; eauto.
  - (* Take *) destruct KA as (L & HA & KE & AB). assert (VE : val (tabs (mem c) h) a = o i /\ o i <> None). { destruct (k_val _ _ _ _ _ TO h a ltac:(lia) KE) as [V|[]]. exact V. }
    destruct VE as [VE VN]. destruct (Nat.eqb_spec h m) as [->|NE]; injection A as <- <-.
    + eapply Q; try reflexivity; try tauto; try (intros []); rewrite VE; destruct (o i) as [q|] eqn:OI; try congruence; cbn; tauto.
    + eapply Q; try reflexivity; try tauto; try (intros []). cbn. split; [lia|]. split; [exact HA|]. split; [exact VE|]. split; [apply AB; lia|]. split; [apply way_start, CAPS; lia|]. exists h, a. split; [lia|exact KE].
  - (* Copy *) destruct KA as (L & HA & VE & AB & ON & EX). destruct (way_mask _ _ _ _ (CAPS m L) ON) as (d & W). destruct (Z.eqb_spec (key (tabs (mem c) m) (mask (tabs (mem c) m) idx)) 0) as [KZ|KNZ]; injection A as <- <-.
    + eapply Q; try reflexivity; try tauto; try (intros []). cbn. eauto 10.
    + eapply Q; try reflexivity; try tauto; try (intros []). cbn. split; [exact L|]. split; [exact HA|]. split; [exact VE|]. split; [exact AB|]. split; [eapply way_next; eauto|exact EX].
  - (* CopyCas *) destruct KA as (L & HA & VE & AB & (d & W) & EX). destruct (Z.eqb_spec (key (tabs (mem c) m) a) 0) as [KZ|KNZ]; injection A as <- <-.
    + destruct EX as (h & b & HM & KE). destruct (g_key _ _ _ GL h b ltac:(lia)) as (_ & j & t & E1 & E2 & E3); [rewrite KE; apply tid_nz|]. rewrite KE in E1. apply tid_inj in E1. subst j.
      assert (R : t < room (cap (tabs (mem c) m))). { pose proof (g_mono _ _ _ GL h m ltac:(lia)) as MO. destruct (CAPS h ltac:(lia)) as (kh & KH & CH). assert (0 <= cap (tabs (mem c) h)) by (rewrite CH; apply Z.pow_nonneg; lia). pose proof (room_mono _ _ (conj H MO)). lia. }
      exists o, T. split; [|left; auto]. eapply key_written; eauto; try (rewrite PI); cbn; auto; try tauto; try (intros; tauto).
      * intros m' b'. split; intros [-> ->]; auto.
      * split; [exact L|]. split; [|split; [exact VE|rewrite Nat.eqb_refl; cbn; now rewrite Z.eqb_refl]]. destruct HA as (H1 & H2 & _). split; [exact H1|]. split; [exact H2|]. exists m, a. cbn. rewrite Nat.eqb_refl. cbn. rewrite Z.eqb_refl. auto.
    + eapply Q; try reflexivity; try tauto; try (intros []). cbn. split; [exact L|]. split; [exact HA|]. split; [exact VE|]. split; [exact AB|]. split; [eapply way_next; eauto|exact EX].
  - (* CopyVal *) destruct KA as (L & HA & VE & KE). injection A as <- <-. exists o, T. split; [|left; auto]. destruct HA as (H1 & H2 & H3).
    eapply val_written; eauto; try rewrite PI; cbn; try tauto; try (intros m' b [-> ->]; auto). destruct v as [q|]; [|congruence]. split; [|congruence]. split; [exact H1|]. split; [exact H2|]. exists m, a. cbn. rewrite Nat.eqb_refl. auto.
  - (* Add *) injection A as <- <-. exists o, ((i, uwrap 64 (1 + count (mem c))) :: T). split; [|left; auto]. now apply ticket_taken.
  - (* Check *) destruct (Z.shiftr (cap (tabs (mem c) m)) 1 <=? n); injection A as <- <-; eapply Q; try reflexivity; try tauto; try (intros []); exact KA.
  - (* Lock *) destruct (resizing (mem c)) eqn:RS; injection A as <- <-; [eapply Q; try reflexivity; try tauto; try (intros []); exact KA|]. exists o, T. split; [|left; auto].
    apply flag_written; auto; [rewrite PI; cbn; tauto|]. cbn. tauto.
  - (* Reload *) assert (LN : (newest (mem c) < ntabs (mem c))%nat) by (unfold newest; lia). destruct (Z.leb_spec (Z.shiftr (cap (tabs (mem c) (newest (mem c)))) 1) n); injection A as <- <-; (eapply Q; [reflexivity|reflexivity|cbn; auto|cbn; tauto|cbn; tauto]).
  - (* Alloc *) destruct KA as (ME & PE & H). assert (LN : (m < ntabs (mem c))%nat) by (rewrite ME; unfold newest; lia). destruct (CAPS m LN) as (k & K & CE). destruct PE as (P1 & P2 & P3). pose proof (w_ticket _ _ _ _ G i n P2) as TN.
    rewrite CE in H, A. pose proof (half_small k n ltac:(lia) ltac:(lia) H) as K62. rewrite double_pow in A by lia. destruct (grown_ok n ltac:(lia) 64 (k + 1) ltac:(lia) ltac:(lia)) as (j' & GE & J & NS). rewrite GE in A.
    destruct ok; injection A as <- <-; (eapply Q; [reflexivity|reflexivity| |cbn; tauto|cbn; tauto]); cbn; [|exists n; repeat split; assumption].
    split; [exact ME|]. split; [repeat split; assumption|]. exists j'. split; [lia|]. split; [reflexivity|]. split; [rewrite CE; apply Z.pow_le_mono_r; lia|exact NS].
  - (* Publish *) injection A as <- <-. exists o, T. split; [|left; auto]. exact (published l (Inside i ok) c o T i m n c0 G PI).
  - (* Unlock *) injection A as <- <-. exists o, T. split; [|left; auto]. apply flag_written; auto; [rewrite PI; cbn; tauto|]. rewrite PI. cbn. tauto.
  - (* Fits *) destruct (Z.ltb_spec n (room (cap (tabs (mem c) m)))); injection A as <- <-; eapply Q; try reflexivity; try tauto; try (intros []); cbn; tauto.
  - (* Wait *) injection A as <- <-. eapply Q; try reflexivity; try tauto; try (intros []). cbn. split; [unfold newest; lia|exact KA].
  - (* Create *) destruct ok; injection A as <- <-.
    + exists (given o i (made (mem c))), T. split; [exact (created l (Inside i true) c o T i m n G PI)|]. destruct KA as (_ & (ON & _) & _). right. auto.
    + eapply Q; try reflexivity; try tauto; try (intros []). cbn. exists n. tauto.
  - (* Probe *) destruct KA as (L & OI & TT & AB & ON). destruct (way_mask _ _ _ _ (CAPS m L) ON) as (d & W). destruct (Z.eqb_spec (key (tabs (mem c) m) (mask (tabs (mem c) m) idx)) 0) as [KZ|KNZ]; injection A as <- <-.
    + eapply Q; try reflexivity; try tauto; try (intros []). cbn. eauto 10.
    + eapply Q; try reflexivity; try tauto; try (intros []). cbn. split; [exact L|]. split; [exact OI|]. split; [exact TT|]. split; [exact AB|]. eapply way_next; eauto.
  - (* ProbeCas *) destruct KA as (L & OI & (t & TT & R) & AB & (d & W)). destruct (Z.eqb_spec (key (tabs (mem c) m) a) 0) as [KZ|KNZ]; injection A as <- <-.
    + exists o, T. split; [|left; auto]. eapply key_written; eauto; try (rewrite PI); cbn; auto; try tauto; try (intros; tauto).
      * intros m' b'. split; intros [-> ->]; auto.
      * split; [exact L|]. split; [exact OI|]. split; [|rewrite Nat.eqb_refl; cbn; now rewrite Z.eqb_refl]. split; [congruence|]. split; [apply in_fst; eauto|]. exists m, a. cbn. rewrite Nat.eqb_refl. cbn. rewrite Z.eqb_refl. auto.
    + eapply Q; try reflexivity; try tauto; try (intros []). cbn. split; [exact L|]. split; [exact OI|]. split; [eauto|]. split; [exact AB|]. eapply way_next; eauto.
  - (* ProbeVal *) destruct KA as (L & OI & HA & KE). injection A as <- <-. exists o, T. split; [|left; auto]. destruct HA as (H1 & H2 & H3).
    eapply val_written; eauto; try rewrite PI; cbn; try tauto; try (intros m' b [-> ->]; auto). split; [|exact OI]. split; [exact H1|]. split; [exact H2|]. exists m, a. cbn. rewrite Nat.eqb_refl. auto.
  - (* GiveUp *) injection A as <- <-. exists o, (filter (fun y => negb (Nat.eqb (fst y) i)) T). split; [|left; auto]. now apply ticket_back.
  - (* GiveUpUnlock *) injection A as <- <-. exists o, T. split; [|left; auto]. apply flag_written; auto; [rewrite PI; cbn; tauto|]. rewrite PI. cbn. tauto.
  - (* Spin *) destruct KA.
Qed.

(** *** Runs *)
Lemma start_good : good [] (start (2 ^ k0)) (fun _ => None) [].
Proof.
  split; cbn; [| |tauto|tauto|lia].
  - split; cbn; try lia; try tauto; try discriminate; try constructor.
    intros. exists k0. split; [lia|reflexivity].
  - intros i. assert (N : forall m : nat, absent (mem (start (2 ^ k0))) i m) by (intros m a E; cbn in E; exact (tid_nz i (eq_sym E))).
    split; cbn; try (intros; exfalso; eapply tid_nz; eauto; fail); [intros []|]. left. repeat split; auto.
Qed.
Notation step := (step tid hash).
Notation run := (run tid hash).
Definition actor (e : label) : nat := match e with Called i | Returned i _ | Inside i _ => i end.
Lemma step_good l c o T e c' : good l c o T -> Z.of_nat (length l) < 2 ^ 62 -> step c e c' -> exists o' T', good (l ++ [e]) c' o' T' /\ later (actor e) (mem c) o (mem c') o'.
Proof.
  intros G B S. destruct S as [c i E|c i r E|c i ok s p BU A]; [| |eapply inside_good; eauto].
  - exists o, T. split; [|left; auto]. pose proof (k_at _ _ _ _ _ (w_thread _ _ _ _ G i)) as KA. rewrite E in KA. apply quiet; auto; rewrite E; cbn; tauto.
  - exists o, T. split; [|left; auto]. pose proof (k_at _ _ _ _ _ (w_thread _ _ _ _ G i)) as KA. rewrite E in KA. apply quiet; auto; [|intros []|rewrite E; cbn; tauto]. cbn in *. destruct r; tauto.
Qed.
Lemma later_keeps i s o s' o' : later i s o s' o' -> forall j q, o j = Some q -> o' j = Some q.
Proof. intros [[-> _]|(N & -> & _)] j q H; [exact H|]. unfold given. destruct (Nat.eqb_spec j i); [subst; congruence|exact H]. Qed.
(** Whoever is in a call has called. *)
Lemma called l c : run (start (2 ^ k0)) l c -> forall i, pcs c i <> Idle -> In (Called i) l.
Proof.
  intros R. remember (start (2 ^ k0)) as st eqn:ES. induction R as [|c0 l c1 e c2 R IH S]; intros i; subst; [cbn; congruence|]. intros H. apply in_or_app.
  destruct S as [c j E|c j r E|c j ok s p BU A]; cbn in H; unfold set_pc in H; destruct (Nat.eqb_spec i j) as [EQ|N]; try (left; apply IH; auto; fail).
  - right. cbn. left. congruence.
  - left. apply IH; auto. intros E. rewrite <- EQ, E in BU. exact BU.
Qed.
(** What has been returned, and who has which sub-queue. *)
Record told (l : list label) (c : config) (o : nat -> option nat) : Prop := {
  t_ret : forall i q, In (Returned i (Some q)) l -> o i = Some q;
  t_onto : forall q, (q < made (mem c))%nat -> exists i, o i = Some q;
  t_call : forall i q, o i = Some q -> In (Called i) l }.
Lemma run_good l c : run (start (2 ^ k0)) l c -> Z.of_nat (length l) <= 2 ^ 62 -> exists o T, good l c o T /\ told l c o.
Proof.
  intros R. remember (start (2 ^ k0)) as st eqn:ES. induction R as [|c0 l c1 e c2 R IH S]; intros B; subst.
  - exists (fun _ => None), []. split; [apply start_good|]. split; [intros i q []|cbn; intros; lia|discriminate].
  - rewrite app_length in B. cbn in B. destruct (IH eq_refl ltac:(lia)) as (o & T & G & [T1 T2 T3]). destruct (step_good _ _ _ _ _ _ G ltac:(lia) S) as (o' & T' & G' & LA). pose proof (later_keeps _ _ _ _ _ LA) as MO.
    exists o', T'. split; [exact G'|]. split.
    + intros i q H. apply in_app_or in H. destruct H as [H|[->|[]]]; [apply MO, T1, H|]. inversion S; subst. pose proof (k_at _ _ _ _ _ (w_thread _ _ _ _ G i)) as KA. match goal with HP : pcs c1 i = _ |- _ => rewrite HP in KA end. apply MO. apply KA.
    + intros q Q. destruct LA as [[-> ME]|(N & -> & ME)]; [apply T2; lia|]. destruct (Nat.eq_dec q (made (mem c1))) as [->|]; [exists (actor e); unfold given; now rewrite Nat.eqb_refl|].
      destruct (T2 q ltac:(lia)) as (i & E). exists i. apply MO. exact E.
    + intros i q E. apply in_or_app. destruct LA as [[-> ME]|(N & -> & ME)]; [left; eauto|]. unfold given in E. destruct (Nat.eqb_spec i (actor e)) as [->|]; [|left; eauto].
      destruct S as [c j EI|c j r EI|c j ok s p BU A]; cbn in ME |- *; try lia. left. apply (called _ _ R). intros EI. rewrite EI in BU. exact BU.
Qed.
(** The flag is set by someone. *)
Lemma act_flag ok i p s s' p' : act ok i p s = (s', p') -> resizing s' = true -> (resizing s = true /\ (holds p -> holds p')) \/ holds p'.
Proof.
  intros A H. destruct p; cbn [ProducerHashModel.act] in A; try (injection A as <- <-; cbn in *; auto; fail).
  - destruct (_ =? tid i); [|destruct (_ =? 0); [destruct h|]]; injection A as <- <-; cbn; auto.
  - destruct (Nat.eqb h m); injection A as <- <-; cbn; auto.
  - destruct (_ =? 0); injection A as <- <-; cbn; auto.
  - destruct (_ =? 0); injection A as <- <-; cbn; auto.
  - destruct (_ <=? n); injection A as <- <-; cbn; auto.
  - destruct (resizing s) eqn:R; injection A as <- <-; cbn; auto.
  - destruct (_ <=? n); injection A as <- <-; cbn; auto.
  - destruct (grown _ _ _); [destruct ok|]; injection A as <- <-; cbn; auto.
  - injection A as <- <-. discriminate.
  - destruct (n <? _); injection A as <- <-; cbn; auto.
  - destruct ok; injection A as <- <-; cbn; auto.
  - destruct (_ =? 0); injection A as <- <-; cbn; auto.
  - destruct (_ =? 0); injection A as <- <-; cbn; auto.
  - destruct locked; injection A as <- <-; cbn; auto.
  - injection A as <- <-. discriminate.
Qed.
Lemma flag_held l c : run (start (2 ^ k0)) l c -> resizing (mem c) = true -> exists i, holds (pcs c i).
Proof.
  intros R. remember (start (2 ^ k0)) as st eqn:ES. induction R as [|c0 l c1 e c2 R IH S]; intros H; subst; [discriminate|].
  destruct S as [c j E|c j r E|c j ok s p BU A]; cbn in H |- *.
  - destruct (IH eq_refl H) as (i & HI). exists i. unfold set_pc. destruct (Nat.eqb_spec i j) as [EQ|N]; [rewrite EQ, E in HI; destruct HI|exact HI].
  - destruct (IH eq_refl H) as (i & HI). exists i. unfold set_pc. destruct (Nat.eqb_spec i j) as [EQ|N]; [rewrite EQ, E in HI; destruct HI|exact HI].
  - destruct (act_flag _ _ _ _ _ _ A H) as [[F K]|HP]; [|exists j; unfold set_pc; now rewrite Nat.eqb_refl].
    destruct (IH eq_refl F) as (i & HI). exists i. unfold set_pc. destruct (Nat.eqb_spec i j) as [EQ|N]; [apply K; now rewrite <- EQ|exact HI].
Qed.
End Proofs.
