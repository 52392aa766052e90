(** Proofs about the Base64 decoder: whole inputs. *)

From Coq Require Import ZArith List Lia Bool.
From Verif Require Import Base Bits CppText TextSpec TextLemmas Base64Model Base64Spec Base64Proofs Base64Proofs2 Base64Proofs3.
Import ListNotations.
Open Scope Z_scope.

Definition stops {A} (P : A -> Prop) (r : list A) : Prop := match r with [] => True | c :: _ => ~ P c end.
Lemma prefix_unique {A} (P : A -> Prop) a b c e : Forall P a -> Forall P b -> stops P c -> stops P e -> a ++ c = b ++ e -> a = b /\ c = e.
Proof.
  intros Fa. revert b. induction Fa as [|x a Hx Fa IH]; intros b Fb Sc Se E.
  - destruct Fb as [|y b Hy Fb]; auto. cbn in E. subst c. contradiction.
  - destruct Fb as [|y b Hy Fb]; cbn in E.
    + subst e. contradiction.
    + injection E as -> E. destruct (IH b Fb Sc Se E) as [-> ->]. auto.
Qed.
Definition plainb (d : decoder) (b : Z) : bool := negb (b =? 61) && (isMime d || (0 <=? val (dUrl d) b)).
Lemma plain_split d s : Forall byte s -> exists xs r, s = xs ++ r /\ Forall (plain d) xs /\ stops (plain d) r.
Proof.
  induction 1 as [|b s Hb F (xs & r & E & Fx & S)]; [exists [], []; cbn; auto|].
  destruct (plainb d b) eqn:P.
  - exists (b :: xs), r. subst. split; auto. split; auto. constructor; auto. unfold plainb in P. split; auto.
    destruct (isMime d); lia.
  - exists [], (b :: s). split; auto. split; auto. cbn. intros (_ & N & Q). unfold plainb in P. destruct Q as [Q|Q]; [rewrite Q in P|]; destruct (isMime d); lia.
Qed.
Lemma digits_alpha url mime ds : Forall sextet ds -> digits (mkDec url mime) (map (alpha url) ds) = ds /\ Forall (plain (mkDec url mime)) (map (alpha url) ds).
Proof.
  induction 1 as [|x ds Hx F [E1 E2]]; [split; [reflexivity|constructor]|]. cbn [map]. rewrite digits_cons. cbn [dUrl].
  destruct (val_alpha url x Hx) as [V B]. rewrite V. unfold sextet in Hx. replace (0 <=? x) with true by lia. rewrite E1. split; auto.
  constructor; auto. split; auto. cbn [dUrl]. rewrite V. split; [|lia]. intros Q. rewrite Q in V.
  assert (val url 61 = -2) by (destruct url; reflexivity). lia.
Qed.
Lemma alpha_digits url xs : Forall (plain (mkDec url false)) xs -> map (alpha url) (digits (mkDec url false) xs) = xs.
Proof.
  induction 1 as [|x xs (B & N & Q) F E]; auto. rewrite digits_cons. cbn [dUrl isMime] in *. destruct Q as [|Q]; [discriminate|].
  replace (0 <=? _) with true by lia. cbn [map]. rewrite E. f_equal.
  destruct (val_cases url x B) as [[? _]|[[_ ?]|[_ [_ ?]]]]; auto; [contradiction|lia].
Qed.
Lemma digits_len_eq url xs : Forall (plain (mkDec url false)) xs -> zlen (digits (mkDec url false) xs) = zlen xs.
Proof. intros F. rewrite <- (alpha_digits url xs F) at 2. unfold zlen. rewrite map_length. auto. Qed.
Lemma not_plain_61 d : ~ plain d 61.
Proof. intros (_ & N & _). auto. Qed.
Lemma wf_split url xs r ds : Forall (plain (mkDec url false)) xs -> stops (plain (mkDec url false)) r ->
  well_formed url (xs ++ r) ds ->
  ds = digits (mkDec url false) xs /\ ((r = [] /\ zlen ds mod 4 <> 1) \/ (r = [61; 61] /\ zlen ds mod 4 = 2) \/ (r = [61] /\ zlen ds mod 4 = 3)).
Proof.
  intros F S (Fd & C). destruct (digits_alpha url false ds Fd) as [D P].
  assert (X : forall pd, stops (plain (mkDec url false)) pd -> xs ++ r = map (alpha url) ds ++ pd -> ds = digits (mkDec url false) xs /\ r = pd).
  { intros pd Sp E. destruct (prefix_unique _ _ _ _ _ F P S Sp E) as [-> ->]. auto. }
  destruct C as [[E M]|[[E M]|[E M]]].
  - rewrite <- (app_nil_r (map _ _)) in E. apply X in E; [|exact I]. destruct E. auto.
  - apply X in E; [|apply not_plain_61]. destruct E. auto.
  - apply X in E; [|apply not_plain_61]. destruct E. auto.
Qed.
Lemma wf_join url xs r : Forall (plain (mkDec url false)) xs ->
  ((r = [] /\ zlen xs mod 4 <> 1) \/ (r = [61; 61] /\ zlen xs mod 4 = 2) \/ (r = [61] /\ zlen xs mod 4 = 3)) ->
  well_formed url (xs ++ r) (digits (mkDec url false) xs).
Proof.
  intros F C. unfold well_formed. rewrite digits_len_eq, alpha_digits by auto.
  split; [apply digits_sextet; eapply Forall_impl; [|exact F]; intros ? Q; apply Q|].
  destruct C as [[-> ?]|[[-> ?]|[-> ?]]]; [left|right; left|right; right]; rewrite ?app_nil_r; auto.
Qed.

(** ** Length computation *)

Lemma int32 x : int_min <= x <= int_max -> in_s 32 x.
Proof. unfold in_s, smin, smax, int_min, int_max. change (2 ^ (32 - 1)) with 2147483648. lia. Qed.
Lemma out_form m n pc : 0 <= n <= int_max - 3 -> 0 <= pc <= 3 ->
  (let* a := sadd m 32 n 3 in let* b := smul m 32 3 (Z.quot a 4) in ssub m 32 b pc) = Ok (3 * ((n + 3) / 4) - pc).
Proof.
  intros Hn Hp. unfold sadd, smul, ssub, int_max in *. rewrite sres_ok by (apply int32; unfold int_min, int_max; lia). cbn [bind].
  rewrite Z.quot_div_nonneg by lia. rewrite sres_ok by (apply int32; unfold int_min, int_max; dm). cbn [bind].
  apply sres_ok. apply int32. unfold int_min, int_max. dm.
Qed.
Lemma land3 n : Z.land n 3 = n mod 4.
Proof. exact (land_ones_mod n 2 ltac:(lia)). Qed.
Lemma at_last {A} (l : list A) x n : n = zlen l -> at_ (l ++ [x]) n = Ok x.
Proof. intros ->. apply (at_mid l x []). auto. Qed.
Lemma decOut_ok m url xs r : Forall (plain (mkDec url false)) xs -> 2 <= zlen (xs ++ r) <= int_max - 3 ->
  exists N, decOutLength m (mkDec url false) (xs ++ r) = Ok N /\ cap (zlen xs) <= N /\
  ((r = [] \/ (r = [61; 61] /\ zlen xs mod 4 = 2) \/ (r = [61] /\ zlen xs mod 4 = 3)) -> N = cap (zlen xs)).
Proof.
  intros F H. unfold decOutLength. cbn [isMime]. set (s := xs ++ r) in *. replace (zlen s =? 0) with false by lia. replace (zlen s <? 2) with false by lia.
  assert (exists s0 y x, s = s0 ++ [y; x]) as (s0 & y & x & Es).
  { destruct s as [|x s'] using rev_ind; [cbn in H; lia|]. clear IHs'. destruct s' as [|y s'] using rev_ind; [cbn in H; lia|]. exists s', y, x. rewrite <- app_assoc. auto. }
  assert (Ls : zlen s = zlen s0 + 2) by (rewrite Es, zlen_app; auto).
  assert (A1 : at_ s (zlen s - 1) = Ok x).
  { rewrite Es. change [y; x] with ([y] ++ [x]). rewrite app_assoc. apply at_last. rewrite !zlen_app. cbn. lia. }
  assert (A2 : at_ s (zlen s - 2) = Ok y) by (rewrite Es; apply at_mid; rewrite zlen_app; cbn; lia).
  rewrite A1. cbn [bind].
  assert (Lx : zlen s = zlen xs + zlen r) by (unfold s; apply zlen_app). pose proof (zlen_nonneg xs). pose proof (zlen_nonneg r).
  assert (NP : forall i c, znth s i = Some c -> c = 61 -> zlen xs <= i).
  { intros i c Ei ->. destruct (Z.lt_ge_cases i (zlen xs)); auto. exfalso. unfold s, znth, zlen in *. destruct (Z.ltb_spec i 0); [discriminate|].
    rewrite nth_error_app1 in Ei by lia. apply nth_error_In in Ei. rewrite Forall_forall in F. apply F in Ei. apply not_plain_61 in Ei. auto. }
  destruct (Z.eqb_spec x 61) as [->|Nx].
  - assert (zlen xs <= zlen s - 1) by (eapply NP; [|reflexivity]; unfold at_ in A1; destruct (znth s (zlen s - 1)); congruence).
    rewrite A2. cbn [bind]. destruct (Z.eqb_spec y 61) as [->|Ny].
    + assert (zlen xs <= zlen s - 2) by (eapply NP; [|reflexivity]; unfold at_ in A2; destruct (znth s (zlen s - 2)); congruence).
      change (2 =? 0) with false. cbn [andb]. exists (3 * ((zlen s + 3) / 4) - 2). split; [apply out_form; lia|].
      split; [unfold cap; clear - H0 H3 H; destruct (Z.leb_spec (zlen xs mod 4) 1); dm|].
      intros [->|[[-> Q]|[-> Q]]]; [change (zlen (@nil Z)) with 0 in Lx; lia| |change (zlen [61]) with 1 in Lx; lia].
      change (zlen [61; 61]) with 2 in Lx. unfold cap. rewrite Q, Lx. change (2 <=? 1) with false. cbv iota. clear - Q. dm.
    + change (1 =? 0) with false. cbn [andb]. exists (3 * ((zlen s + 3) / 4) - 1). split; [apply out_form; lia|].
      split; [unfold cap; clear - H0 H2 H; destruct (Z.leb_spec (zlen xs mod 4) 1); dm|].
      intros [->|[[-> Q]|[-> Q]]]; [change (zlen (@nil Z)) with 0 in Lx; lia| |].
      { exfalso. apply Ny. unfold s in Es. change [61; 61] with ([61] ++ [61]) in Es. change [y; 61] with ([y] ++ [61]) in Es. rewrite !app_assoc in Es.
        apply app_inj_tail in Es. destruct Es as [Es _]. apply app_inj_tail in Es. destruct Es. auto. }
      change (zlen [61]) with 1 in Lx. unfold cap. rewrite Q, Lx. change (3 <=? 1) with false. cbv iota. clear - Q. dm.
  - cbn [bind]. change (0 =? 0) with true. cbn [andb]. rewrite land3.
    exists (3 * ((zlen s + 3) / 4) - (if negb (zlen s mod 4 =? 0) then 4 - zlen s mod 4 else 0)). split.
    + apply out_form; [lia|]. destruct (Z.eqb_spec (zlen s mod 4) 0); cbn [negb]; dm.
    + split; [unfold cap; clear - H0 Lx H1; destruct (Z.leb_spec (zlen xs mod 4) 1), (Z.eqb_spec (zlen s mod 4) 0); cbn [negb]; dm|].
      intros R. assert (r = []) as ->.
      { assert (R' : r = [] \/ exists r0, r = r0 ++ [61]) by (destruct R as [->|[[-> _]|[-> _]]]; [auto|right; exists [61]; auto|right; exists []; auto]).
        destruct R' as [->|[r0 ->]]; auto. exfalso. apply Nx. unfold s in Es. change [y; x] with ([y] ++ [x]) in Es. rewrite !app_assoc in Es. apply app_inj_tail in Es. destruct Es. auto. }
      change (zlen (@nil Z)) with 0 in Lx. rewrite Z.add_0_r in Lx. rewrite Lx. unfold cap. clear - H0.
      destruct (Z.leb_spec (zlen xs mod 4) 1), (Z.eqb_spec (zlen xs mod 4) 0); cbn [negb]; dm.
Qed.

(** ** decoding, basic and URL *)

(** What the text after the digits leads to. *)
Definition verdict (nx : Z) (r : list Z) : outcome unit :=
  match r with
  | [] => if nx mod 4 =? 1 then Throw InterruptedException else Ok tt
  | c :: r' =>
    if negb (c =? 61) then Throw InterruptedException
    else if nx mod 4 =? 2 then
      match r' with
      | [] => Throw InterruptedException
      | y :: r'' => if y =? 61 then match r'' with [] => Ok tt | _ => ending_message (nx + 2) end else Throw InterruptedException
      end
    else if nx mod 4 =? 3 then match r' with [] => Ok tt | _ => ending_message (nx + 1) end
    else Throw InterruptedException
  end.
Lemma ending_basic url src sp fuel : ending (mkDec url false) (fromTable url) src (zlen src) (S fuel) sp =
  if sp <? zlen src then ending_message sp else Ok tt.
Proof. reflexivity. Qed.
Lemma ending_basic0 url src sp : zlen src <> 0 -> ending (mkDec url false) (fromTable url) src (zlen src) (Z.to_nat (zlen src)) sp =
  if sp <? zlen src then ending_message sp else Ok tt.
Proof. intros H. pose proof (zlen_nonneg src). destruct (Z.to_nat (zlen src)) eqn:E; [lia|]. apply ending_basic. Qed.
Lemma ending_not_ok sp : exists x, ending_message sp = x /\ (x = Throw InterruptedException /\ sp <= 46 \/ x = UB OutOfBounds /\ 46 < sp).
Proof. unfold ending_message. eexists. split; [reflexivity|]. destruct (Z.leb_spec sp 46); auto. Qed.

Lemma decoding_basic url xs r h z : Forall (plain (mkDec url false)) xs -> Forall byte r -> stops (plain (mkDec url false)) r -> zlen h = cap (zlen xs) ->
  decoding (mkDec url false) (xs ++ r) (h ++ z) =
  let* _ := verdict (zlen xs) r in Ok (cap (zlen xs), bytes_of (digits (mkDec url false) xs) ++ z).
Proof.
  intros F Fr S Hh. set (d := mkDec url false) in *. set (ds := digits d xs).
  assert (Ld : zlen ds = zlen xs) by (apply digits_len_eq; auto).
  assert (Fd : Forall sextet ds) by (apply digits_sextet; eapply Forall_impl; [|exact F]; intros ? Q; apply Q).
  destruct (decoding_split d xs r h z F) as (h1 & h2 & -> & L1 & L2 & E).
  { intros N. destruct r; [contradiction|]. eexists. reflexivity. }
  { fold ds. rewrite Ld. auto. }
  fold ds in L1, L2, E. cbn zeta in E. rewrite E. clear E.
  pose proof (rest4_len ds) as R4. rewrite Ld in R4. pose proof (zlen_nonneg xs) as X0.
  assert (FIN : forall sp, fin d (xs ++ r) (sp, zlen (full ds), gb (rest4 ds), 18 - 6 * zlen (rest4 ds), full ds ++ h2 ++ z) =
     if zlen xs mod 4 =? 1 then Throw InterruptedException else
     let* _ := ending d (fromTable url) (xs ++ r) (zlen (xs ++ r)) (Z.to_nat (zlen (xs ++ r))) sp in Ok (cap (zlen xs), bytes_of ds ++ z)).
  { intros sp. rewrite (fin_ok d (xs ++ r) ds sp (full ds) h2 z Fd eq_refl L2), Ld, bytes_full, <- app_assoc. auto. }
  assert (M4 : 0 <= zlen xs mod 4 < 4) by (apply Z.mod_pos_bound; lia).
  destruct r as [|c r'].
  - cbn [length decode_loop]. rewrite app_nil_r in *. rewrite Z.ltb_irrefl. cbn [bind verdict]. rewrite FIN.
    destruct (zlen xs mod 4 =? 1); auto. cbn [bind].
    destruct (Z.eq_dec (zlen xs) 0) as [Z0|Z0]; [rewrite Z0; reflexivity|]. unfold d at 1. rewrite ending_basic0, Z.ltb_irrefl by auto. auto.
  - cbn [length decode_loop].
    assert (LS : zlen (xs ++ c :: r') = zlen xs + 1 + zlen r') by (rewrite zlen_app, zlen_cons; lia).
    pose proof (zlen_nonneg r'). replace (zlen xs <? zlen (xs ++ c :: r')) with true by lia. rewrite at_mid by auto. cbn [bind].
    inversion Fr as [|? ? Bc Fr']; subst. rewrite land255, table_at by auto. change (dUrl d) with url. cbn [bind]. cbn [stops] in S.
    assert (EB : forall sp, ending d (fromTable url) (xs ++ c :: r') (zlen (xs ++ c :: r')) (Z.to_nat (zlen (xs ++ c :: r'))) sp =
       if sp <? zlen (xs ++ c :: r') then ending_message sp else Ok tt) by (intros; apply ending_basic0; lia).
    destruct (val_cases url c Bc) as [[-> ->]|[[N ->]|[N [Hs Ea]]]].
    + change (-2 <? 0) with true. change (-2 =? -2) with true. cbn [verdict]. change (negb (61 =? 61)) with false. cbv iota. rewrite R4.
      replace (18 - 6 * (zlen xs mod 4) =? 6) with (zlen xs mod 4 =? 2) by lia. replace (18 - 6 * (zlen xs mod 4) =? 18) with (zlen xs mod 4 =? 0) by lia.
      destruct (Z.eqb_spec (zlen xs mod 4) 2) as [Q2|Q2].
      * destruct r' as [|y r''].
        -- change (zlen (@nil Z)) with 0 in LS. replace (zlen xs + 1 =? _) with true by lia. auto.
        -- rewrite zlen_cons in LS. pose proof (zlen_nonneg r''). replace (zlen xs + 1 =? _) with false by lia.
           change (xs ++ 61 :: y :: r'') with (xs ++ [61] ++ y :: r'') at 1. rewrite (app_assoc xs [61]), at_mid by (rewrite zlen_app; auto). cbn [bind].
           destruct (Z.eqb_spec y 61) as [->|Ny]; auto. cbn [bind]. rewrite <- R4, FIN. replace (zlen xs mod 4 =? 1) with false by lia. rewrite EB.
           replace (zlen xs + 1 + 1) with (zlen xs + 2) by lia. destruct r'' as [|u r3].
           ++ change (zlen (@nil Z)) with 0 in LS. replace (_ <? _) with false by lia. auto.
           ++ rewrite zlen_cons in LS. pose proof (zlen_nonneg r3). replace (_ <? _) with true by lia. auto.
      * destruct (Z.eqb_spec (zlen xs mod 4) 0) as [Q0|Q0]; [replace (_ =? 3) with false by lia; auto|]. cbn [bind]. rewrite <- R4, FIN.
        destruct (Z.eqb_spec (zlen xs mod 4) 1) as [Q1|Q1]; [replace (_ =? 3) with false by lia; auto|]. replace (_ =? 3) with true by lia.
        rewrite EB. destruct r' as [|u r3].
        -- change (zlen (@nil Z)) with 0 in LS. replace (_ <? _) with false by lia. auto.
        -- rewrite zlen_cons in LS. pose proof (zlen_nonneg r3). replace (_ <? _) with true by lia. auto.
    + change (-1 <? 0) with true. change (-1 =? -2) with false. cbn [isMime d bind]. unfold verdict. replace (c =? 61) with false by lia. reflexivity.
    + exfalso. apply S. split; auto. split; auto. right. cbn [dUrl d]. unfold sextet in Hs. lia.
Qed.

Lemma shorten_app l z : shorten (l ++ z) (zlen l) = l.
Proof.
  unfold shorten. rewrite zlen_app. pose proof (zlen_nonneg z). replace (Z.to_nat (zlen l - _)) with O by lia. cbn [repeat]. rewrite app_nil_r.
  unfold zlen. rewrite Nat2Z.id, firstn_app, Nat.sub_diag, firstn_all. cbn. apply app_nil_r.
Qed.

Lemma decode_basic m url xs r : Forall (plain (mkDec url false)) xs -> Forall byte r -> stops (plain (mkDec url false)) r -> zlen (xs ++ r) <= int_max - 3 ->
  decode m (mkDec url false) (xs ++ r) = let* _ := verdict (zlen xs) r in Ok (bytes_of (digits (mkDec url false) xs)).
Proof.
  intros F Fr S H. pose proof (zlen_nonneg (xs ++ r)). unfold decode.
  destruct (Z.eq_dec (zlen (xs ++ r)) 0) as [Z0|Z0].
  - apply zlen_0 in Z0. apply app_eq_nil in Z0. destruct Z0 as [-> ->]. reflexivity.
  - destruct (Z.eq_dec (zlen (xs ++ r)) 1) as [Z1|Z1].
    + unfold decOutLength. rewrite Z1. change (1 =? 0) with false. change (1 <? 2) with true. cbn [isMime dUrl]. rewrite (table_at url 0) by (unfold byte; lia). cbn [bind andb].
      rewrite zlen_app in Z1. pose proof (zlen_nonneg xs). pose proof (zlen_nonneg r).
      destruct xs as [|x xs].
      * destruct r as [|c [|y r]]; try discriminate Z1. 2:{ rewrite !zlen_cons in Z1. pose proof (zlen_nonneg r). cbn in Z1. lia. }
        change (zlen (@nil Z)) with 0. inversion Fr as [|? ? Bc _]; subst. unfold verdict. change (0 mod 4 =? 2) with false. change (0 mod 4 =? 3) with false.
        destruct (c =? 61); reflexivity.
      * rewrite zlen_cons in *. assert (zlen xs = 0) by (pose proof (zlen_nonneg xs); lia). assert (zlen r = 0) by (pose proof (zlen_nonneg xs); lia). apply zlen_0 in H3. apply zlen_0 in H4. subst. reflexivity.
    + destruct (decOut_ok m url xs r F ltac:(lia)) as (N & -> & HN & _). cbn [bind]. pose proof (cap_nonneg (zlen xs) (zlen_nonneg xs)).
      unfold newArray. replace (N <? 0) with false by lia. cbn [bind].
      destruct (split_len (repeat 0 (Z.to_nat N)) (cap (zlen xs))) as (h & z & E0 & Lh); [rewrite zlen_repeat; lia|]. rewrite E0.
      rewrite decoding_basic by auto. destruct (verdict (zlen xs) r); cbn [bind]; auto.
      assert (Lb : zlen (bytes_of (digits (mkDec url false) xs)) = cap (zlen xs)) by (rewrite bytes_len, digits_len_eq by auto; auto).
      destruct (Z.eqb_spec (cap (zlen xs)) N) as [E|E]; f_equal.
      * apply (f_equal zlen) in E0. rewrite zlen_repeat, zlen_app in E0 by lia. assert (Z0' : zlen z = 0) by lia. apply zlen_0 in Z0'. subst z. apply app_nil_r.
      * rewrite <- Lb at 1. apply shorten_app.
Qed.
