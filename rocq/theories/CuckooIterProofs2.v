(** The loop over the table. *)
From Coq Require Import ZArith List Lia Bool.
From Verif Require Import Base Bits CuckooModel CuckooRunModel CuckooProofs1 CuckooProofs2 CuckooProofs3 CuckooProofs4 CuckooProofs5 CuckooProofs6 CuckooProofs7 CuckooProofs8 CuckooProofs9.
From Verif Require ConcMapModel.
From Verif Require Import CuckooSpec CuckooIterModel CuckooIterSpec CuckooIterProofs.
Import ListNotations.
Open Scope Z_scope.

Lemma next_spec {K V} (c : @cells K V) : forall n i s, 0 <= s < 4 ->
  match next_occupied c i s n with
  | Some (i', s', e) => 0 <= s' < 4 /\ 4 * i + s <= 4 * i' + s' < 4 * i + s + Z.of_nat n /\ c i' s' = Some e /\
      forall j u, 0 <= u < 4 -> 4 * i + s <= 4 * j + u < 4 * i' + s' -> c j u = None
  | None => forall j u, 0 <= u < 4 -> 4 * i + s <= 4 * j + u < 4 * i + s + Z.of_nat n -> c j u = None
  end.
Proof.
  induction n as [|n IH]; intros i s S; cbn [next_occupied].
  - intros j u U P. lia.
  - destruct (c i s) as [e|] eqn:E.
    + split; [lia|]. split; [lia|]. split; [exact E|]. intros; lia.
    + assert (ST : exists i2 s2, 0 <= s2 < 4 /\ 4 * i2 + s2 = 4 * i + s + 1 /\ (if s + 1 <? 4 then next_occupied c i (s + 1) n else next_occupied c (i + 1) 0 n) = next_occupied c i2 s2 n).
      { destruct (Z.ltb_spec (s + 1) 4); [exists i, (s + 1)|exists (i + 1), 0]; (split; [lia|]; split; [lia|reflexivity]). }
      destruct ST as (i2 & s2 & S2 & Q & ->). specialize (IH i2 s2 S2). destruct (next_occupied c i2 s2 n) as [[[i' s'] e]|].
      * destruct IH as (A & B & C & D). split; [lia|]. split; [lia|]. split; [exact C|]. intros j u U P. destruct (Z.eq_dec (4 * j + u) (4 * i + s)) as [X|X].
        -- assert (j = i /\ u = s) as [-> ->] by lia. exact E.
        -- apply D; lia.
      * intros j u U P. destruct (Z.eq_dec (4 * j + u) (4 * i + s)) as [X|X].
        -- assert (j = i /\ u = s) as [-> ->] by lia. exact E.
        -- apply IH; lia.
Qed.

Section Iter.
Context {K V : Type} (hash : K -> Z) (keq : K -> K -> bool) (simple nothrow : bool).
Context (keq_spec : forall a b, keq a b = true <-> a = b).
Notation table := (@table K V).
Notation perform := (perform hash keq simple nothrow). Notation perform_all := (perform_all hash keq simple nothrow).
Notation rep := (rep hash). Notation dict_of := (dict_of keq). Notation view := (view hash).
Notation loop := (loop hash keq simple nothrow). Notation for_each := (for_each hash keq simple nothrow).

(** [p] is the end or an occupied slot *)
Definition at_slot (t : table) (p : place) : Prop :=
  p = end_pos t \/ (0 <= fst p < 2 ^ hp t /\ 0 <= snd p < 4 /\ cell t (fst p) (snd p) <> None).
Definition pos (p : place) : Z := 4 * fst p + snd p.
Lemma settle_spec (t : table) i s : 0 <= hp t -> 0 <= s < 4 -> 0 <= i -> 4 * i + s <= 4 * 2 ^ hp t ->
  at_slot t (settle t i s) /\ 4 * i + s <= pos (settle t i s) /\
  forall j u, 0 <= u < 4 -> 4 * i + s <= 4 * j + u < pos (settle t i s) -> cell t j u = None.
Proof.
  intros H S I B. unfold settle, hashsize. pose proof (next_spec (cell t) (Z.to_nat (4 * (2 ^ hp t - i) - s)) i s S) as N.
  destruct (next_occupied _ _ _ _) as [[[i' s'] e]|].
  - destruct N as (A & P & C & D). unfold pos. cbn [fst snd]. split; [right; cbn [fst snd]; split; [lia|]; split; [lia|congruence]|]. split; [lia|exact D].
  - unfold at_slot, pos, end_pos, hashsize. cbn [fst snd]. split; [now left|]. split; [lia|]. intros j u U P. apply N; [exact U|]. lia.
Qed.
Lemma advance_spec (t : table) p : 0 <= hp t -> 0 <= fst p < 2 ^ hp t -> 0 <= snd p < 4 ->
  at_slot t (advance t p) /\ pos p < pos (advance t p) /\
  forall j u, 0 <= u < 4 -> pos p < 4 * j + u < pos (advance t p) -> cell t j u = None.
Proof.
  destruct p as [i s]. cbn [fst snd]. intros H I S. unfold advance, pos at 1 3. cbn [fst snd].
  destruct (Z.ltb_spec (s + 1) 4) as [L|L].
  - destruct (settle_spec t i (s + 1) H ltac:(lia) ltac:(lia) ltac:(lia)) as (A & B & C). split; [exact A|]. split; [lia|]. intros j u U P. apply C; lia.
  - destruct (settle_spec t (i + 1) 0 H ltac:(lia) ltac:(lia) ltac:(lia)) as (A & B & C). split; [exact A|]. split; [lia|]. intros j u U P. apply C; lia.
Qed.

Record sweeps (t : table) (m : list (K * V)) (p : place) (past : list (K * V)) : Prop := {
  w_rep : rep t m; w_settled : settled t; w_at : at_slot t p;
  w_before : forall j u e, 0 <= j -> 0 <= u < 4 -> 4 * j + u < pos p -> cell t j u = Some e -> In (e_key e) (map fst past);
  w_after : forall j u e, j < 2 ^ hp t -> 0 <= u < 4 -> pos p <= 4 * j + u -> cell t j u = Some e -> ~ In (e_key e) (map fst past);
  w_nodup : NoDup (map fst past) }.

Lemma in_cell (t : table) m k v : rep t m -> settled t -> In (k, v) m <-> exists i s e, 0 <= i < 2 ^ hp t /\ 0 <= s < 4 /\ cell t i s = Some e /\ e_key e = k /\ e_val e = v.
Proof.
  intros R S. rewrite (r_in _ _ _ R). split.
  - intros (e & (i & s & C) & Q1 & Q2). destruct (r_shape _ _ _ R i s e C) as (I & U & _). exists i, s, e. rewrite (view_settled hash) in C by (try apply (r_wf _ _ _ R); assumption). auto.
  - intros (i & s & e & I & U & C & Q1 & Q2). exists e. split; [|auto]. exists i, s. rewrite (view_settled hash) by (try apply (r_wf _ _ _ R); assumption). exact C.
Qed.

Lemma same_place_spec p q : same_place p q = true <-> p = q.
Proof. destruct p, q. unfold same_place. cbn. rewrite andb_true_iff, !Z.eqb_eq. split; [intros [-> ->]; reflexivity|intros X; injection X as -> ->; auto]. Qed.

Lemma dict_in (m : list (K * V)) k v : NoDup (map fst m) -> dict_of m k = Some v <-> In (k, v) m.
Proof. intros N. unfold CuckooProofs9.dict_of. now apply t_find_in. Qed.

Lemma NoDup_snoc (l : list K) k : NoDup l -> ~ In k l -> NoDup (l ++ [k]).
Proof.
  induction l as [|x l IH]; intros N I; cbn; [repeat constructor; exact (fun f => f)|].
  inversion N as [|? ? N1 N2]; subst. constructor.
  - rewrite in_app_iff. intros [X|[X|[]]]; [contradiction|]. subst. apply I. now left.
  - apply IH; [assumption|]. intros X. apply I. now right.
Qed.

Lemma loop_ok body h : (forall past, Z.of_nat (length (body past)) < 2 ^ 62) -> forall fuel (t : table) m p past log r,
  sweeps t m p past -> hp t = h -> zlen m < 2 ^ 62 -> 4 * 2 ^ h - pos p <= Z.of_nat fuel ->
  loop fuel body (hashsize h, 0) t p past = (log, r) -> no_new_key log ->
  exists t' m', r = Ended t' /\ rep t' m' /\ visits (dict_of m) log (dict_of m') /\ NoDup (map fst past ++ keys_of log) /\
    forall k v, In (k, v) m' -> In k (map fst past ++ keys_of log).
Proof.
  intros HB. induction fuel as [|fuel IH]; intros t m p past log r W HH BM FU E N.
  - cbn [CuckooIterModel.loop] in E. destruct (same_place p (hashsize h, 0)) eqn:SP.
    2: { exfalso. destruct (w_at _ _ _ _ W) as [A|(A1 & A2 & _)].
         - rewrite A in SP. unfold end_pos in SP. rewrite HH in SP. assert (same_place (hashsize h, 0) (hashsize h, 0) = true) by now apply same_place_spec. congruence.
         - unfold pos in FU. rewrite HH in A1. lia. }
    injection E as <- <-. apply same_place_spec in SP. exists t, m. cbn. rewrite app_nil_r. split; [reflexivity|]. split; [apply W|]. split; [auto|]. split; [apply W|].
    intros k v I. apply (in_cell t m k v (w_rep _ _ _ _ W) (w_settled _ _ _ _ W)) in I. destruct I as (i & s & e & RI & RS & C & <- & _).
    apply (w_before _ _ _ _ W i s e); [lia|assumption| |exact C]. rewrite SP. unfold pos, hashsize. cbn [fst snd]. rewrite HH in RI. lia.
  - cbn [CuckooIterModel.loop] in E. destruct (same_place p (hashsize h, 0)) eqn:SP.
    { injection E as <- <-. apply same_place_spec in SP. exists t, m. cbn. rewrite app_nil_r. split; [reflexivity|]. split; [apply W|]. split; [auto|]. split; [apply W|].
      intros k v I. apply (in_cell t m k v (w_rep _ _ _ _ W) (w_settled _ _ _ _ W)) in I. destruct I as (i & s & e & RI & RS & C & <- & _).
      apply (w_before _ _ _ _ W i s e); [lia|assumption| |exact C]. rewrite SP. unfold pos, hashsize. cbn [fst snd]. rewrite HH in RI. lia. }
    destruct (w_at _ _ _ _ W) as [A|(A1 & A2 & A3)].
    { exfalso. rewrite A in SP. unfold end_pos in SP. rewrite HH in SP. assert (same_place (hashsize h, 0) (hashsize h, 0) = true) by now apply same_place_spec. congruence. }
    assert (R := w_rep _ _ _ _ W). assert (HP : 0 <= hp t) by apply R.
    destruct (cell t (fst p) (snd p)) as [e|] eqn:C; [|contradiction].
    assert (DE : deref t p = Ok (e_key e, e_val e)).
    { destruct p as [i s]. cbn [fst snd] in *. unfold deref, hashsize. replace (0 <=? i) with true by (symmetry; apply Z.leb_le; lia). replace (i <? 2 ^ hp t) with true by (symmetry; apply Z.ltb_lt; lia). cbn [andb]. now rewrite C. }
    rewrite DE in E. set (x := (e_key e, e_val e)) in *. cbv zeta in E.
    assert (B63 : (2 : Z) ^ 62 + 2 ^ 62 = 2 ^ 63) by reflexivity. specialize (HB (past ++ [x])).
    destruct (perform_all_ok hash keq simple nothrow keq_spec (body (past ++ [x])) t m R ltac:(lia)) as (t1 & l & _ & EP & _). rewrite EP in E.
    destruct (loop fuel body (hashsize h, 0) t1 (advance t1 p) (past ++ [x])) as [log1 r1] eqn:E1. injection E as <- <-.
    inversion N as [|? ? N1 N2]; subst. cbn [snd] in N1.
    destruct (perform_all_stays hash keq simple nothrow keq_spec _ t t1 m l R ltac:(lia) (w_settled _ _ _ _ W) EP N1) as (m1 & R1 & LE & (ST1 & ST2 & ST3) & LD).
    destruct (advance_spec t1 p ltac:(rewrite ST1; lia) ltac:(rewrite ST1; lia) A2) as (AD1 & AD2 & AD3).
    assert (KX : In (e_key e) (map fst (past ++ [x]))) by (rewrite map_app, in_app_iff; right; now left).
    assert (W1 : sweeps t1 m1 (advance t1 p) (past ++ [x])).
    { split; try assumption.
      - intros j u e1 J U P C1. destruct (Z_lt_ge_dec (pos p) (4 * j + u)) as [X|X]; [rewrite (AD3 j u U ltac:(lia)) in C1; discriminate|].
        destruct (ST3 j u e1 ltac:(unfold pos in X; lia) C1) as (e0 & C0 & <-). rewrite map_app, in_app_iff.
        destruct (Z.eq_dec (4 * j + u) (pos p)) as [Y|Y].
        + right. left. assert (j = fst p /\ u = snd p) as [-> ->] by (unfold pos in Y; lia). rewrite C in C0. injection C0 as <-. reflexivity.
        + left. apply (w_before _ _ _ _ W j u e0); try assumption. lia.
      - intros j u e1 J U P C1. rewrite ST1 in J. assert (J0 : 0 <= j) by (unfold pos in *; lia). destruct (ST3 j u e1 ltac:(lia) C1) as (e0 & C0 & <-). rewrite map_app, in_app_iff. intros [X|[X|[]]].
        + apply (w_after _ _ _ _ W j u e0) in X; try assumption. lia.
        + cbn [fst] in X. assert (j = fst p /\ u = snd p) as [-> ->]; [|change (4 * fst p + snd p) with (pos p) in P; lia].
          apply (r_uniq _ _ _ R j u e0 (fst p) (snd p) e); [rewrite (view_settled hash); [exact C0|apply (r_wf _ _ _ R)|apply W|lia]|rewrite (view_settled hash); [exact C|apply (r_wf _ _ _ R)|apply W|lia]|symmetry; exact X].
      - rewrite map_app. apply NoDup_snoc; [apply W|]. intros X. apply (w_after _ _ _ _ W (fst p) (snd p) e) in X; try assumption; unfold pos; lia. }
    destruct (IH t1 m1 (advance t1 p) (past ++ [x]) log1 r1 W1 ST1 ltac:(lia) ltac:(lia) E1 N2) as (t' & m' & -> & R' & VI & ND & CO).
    exists t', m'. split; [reflexivity|]. split; [assumption|]. unfold keys_of. cbn [map fst snd]. fold (keys_of log1).
    rewrite map_app, <- app_assoc in ND. rewrite map_app in CO. cbn [map fst app] in ND, CO. split; [|split; [exact ND|]].
    + cbn [visits]. split; [|exists (dict_of m1); auto]. apply dict_in; [apply R|]. apply (in_cell t m _ _ R (w_settled _ _ _ _ W)). exists (fst p), (snd p), e. auto 6.
    + intros k v I. specialize (CO k v I). rewrite <- app_assoc in CO. exact CO.
Qed.

Lemma for_each_ok body fuel (t : table) m log r : (forall past, Z.of_nat (length (body past)) < 2 ^ 62) -> rep t m -> zlen m < 2 ^ 62 ->
  (Z.to_nat (4 * hashsize (hp t)) <= fuel)%nat -> for_each fuel body t = (log, r) -> no_new_key log ->
  exists t' m', r = Ended t' /\ rep t' m' /\ visits (dict_of m) log (dict_of m') /\ NoDup (keys_of log) /\ forall k v, In (k, v) m' -> In k (keys_of log).
Proof.
  intros HB R BM FU E N. unfold CuckooIterModel.for_each in E.
  destruct (rehash_all_ok hash t (wf_0 _ _ (r_wf _ _ _ R))) as (t1 & E1 & W1 & S1 & A1 & _). rewrite E1 in E.
  assert (R1 := rep_same hash _ _ _ R W1 S1).
  destruct (rehash_all_ok hash t1 (wf_0 _ _ W1)) as (t2 & E2 & W2 & S2 & A2 & _). rewrite E2 in E.
  assert (R2 := rep_same hash _ _ _ R1 W2 S2). assert (H1 : 0 <= hp t1) by apply W1.
  assert (HH2 := s_hp _ _ _ S2). assert (HH1 := s_hp _ _ _ S1).
  assert (CC : forall i s, 0 <= i < 2 ^ hp t1 -> cell t2 i s = cell t1 i s).
  { intros i s I. rewrite <- (view_settled hash t2) by (try apply W2; try assumption; rewrite HH2; exact I). rewrite (s_view _ _ _ S2). apply view_settled; [apply W1|assumption..]. }
  assert (P1 : 0 < 2 ^ hp t1) by (apply Z.pow_pos_nonneg; lia).
  destruct (settle_spec t1 0 0 H1 ltac:(lia) ltac:(lia) ltac:(lia)) as (B1 & B2 & B3).
  assert (W : sweeps t2 m (settle t1 0 0) []).
  { split; try assumption.
    - destruct B1 as [B1|(B1 & B1' & B1'')]; [left; rewrite B1; unfold end_pos; now rewrite HH2|]. right. rewrite HH2. rewrite CC by assumption. auto.
    - intros j u e J U P C. exfalso. assert (JJ : j < 2 ^ hp t1) by (destruct B1 as [B1|(B1 & B1b & _)]; [rewrite B1 in P; unfold pos, end_pos, hashsize in P; cbn [fst snd] in P; lia|unfold pos in P; lia]).
      rewrite CC in C by lia. rewrite B3 in C; [discriminate|assumption|lia].
    - intros j u e J U P C X. exact X.
    - constructor. }
  assert (FU' : 4 * 2 ^ hp t2 - pos (settle t1 0 0) <= Z.of_nat fuel) by (unfold hashsize in FU; rewrite HH2, HH1 in *; lia).
  exact (loop_ok body (hp t2) HB fuel t2 m _ [] log r W eq_refl BM FU' E N).
Qed.

Lemma perform_all_leads : forall os (t : table) m t' l, rep t m -> zlen m + Z.of_nat (length os) < 2 ^ 63 -> perform_all os t = Some (t', l) ->
  exists m', rep t' m' /\ zlen m' <= zlen m + Z.of_nat (length os) /\ leads os (dict_of m) l (dict_of m').
Proof.
  induction os as [|o os IH]; intros t m t' l R B E; cbn [CuckooRunModel.perform_all] in E.
  - injection E as <- <-. exists m. cbn. split; [assumption|]. split; [lia|auto].
  - cbn [length] in B |- *. destruct (perform_ok hash keq simple nothrow keq_spec o t m R ltac:(lia)) as (t1 & a & m1 & E1 & R1 & L1 & Z1). rewrite E1 in E.
    destruct (perform_all os t1) as [[t2 l2]|] eqn:E2; [|discriminate]. injection E as <- <-.
    destruct (IH t1 m1 t2 l2 R1 ltac:(lia) E2) as (m2 & R2 & Z2 & LD). exists m2. split; [assumption|]. split; [lia|]. cbn [leads]. eauto.
Qed.
End Iter.
