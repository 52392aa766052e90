(** Proofs about the Base64 decoder. *)

From Coq Require Import ZArith List Lia Bool.
From Verif Require Import Base Bits CppText TextSpec TextLemmas Base64Model Base64Spec Base64Proofs Base64Proofs2.
Import ListNotations.
Open Scope Z_scope.

(** ** The decoding table *)

Definition val (url : bool) (b : Z) : Z := match znth (fromTable url) b with Some x => x | None => -1 end.
Lemma table_at url b : byte b -> at_ (fromTable url) b = Ok (val url b).
Proof.
  intros H. apply oeq_ok. apply (forall_range (fun b => oeq (at_ (fromTable url) b) (val url b)) 256); [|exact H].
  destruct url; vm_compute; reflexivity.
Qed.
Lemma val_cases url b : byte b -> (b = 61 /\ val url b = -2) \/ (b <> 61 /\ val url b = -1) \/ (b <> 61 /\ sextet (val url b) /\ alpha url (val url b) = b).
Proof.
  intros H.
  pose (P := fun b => if b =? 61 then val url b =? -2 else
     (val url b =? -1) || ((0 <=? val url b) && (val url b <? 64) && (alpha url (val url b) =? b))).
  assert (E : P b = true) by (apply (forall_range P 256); [destruct url; vm_compute; reflexivity|exact H]).
  unfold P in E. unfold sextet. destruct (Z.eqb_spec b 61); lia.
Qed.
Lemma val_alpha url d : sextet d -> val url (alpha url d) = d /\ byte (alpha url d).
Proof.
  intros H. pose (P := fun d => (val url (alpha url d) =? d) && (0 <=? alpha url d) && (alpha url d <? 256)).
  assert (E : P d = true) by (apply (forall_range P 64); [destruct url; vm_compute; reflexivity|exact H]).
  unfold P in E. unfold byte. lia.
Qed.
Lemma val_junk url b : byte b -> b <> 61 -> ~ in_alphabet url b -> val url b = -1.
Proof. intros H N A. destruct (val_cases url b H) as [[? _]|[[_ ?]|[_ [Hs E]]]]; try contradiction; auto. exfalso. apply A. exists (val url b). auto. Qed.
Lemma val_range url b : byte b -> -2 <= val url b < 64.
Proof. intros H. destruct (val_cases url b H) as [[_ ->]|[[_ ->]|[_ [Hs E]]]]; unfold sextet in *; lia. Qed.

(** ** Groups of digits *)

Fixpoint full (ds : list Z) : list Z :=
  match ds with a :: b :: c :: d :: t => (a * 4 + b / 16) :: (b mod 16 * 16 + c / 4) :: (c mod 4 * 64 + d) :: full t | _ => [] end.
Fixpoint rest4 (ds : list Z) : list Z :=
  match ds with a :: b :: c :: d :: t => rest4 t | _ => ds end.
Definition tail_bytes (r : list Z) : list Z :=
  match r with [a; b] => [a * 4 + b / 16] | [a; b; c] => [a * 4 + b / 16; b mod 16 * 16 + c / 4] | _ => [] end.
Lemma quads (P : list Z -> Prop) : P [] -> (forall a, P [a]) -> (forall a b, P [a; b]) -> (forall a b c, P [a; b; c]) ->
  (forall a b c d t, P t -> P (a :: b :: c :: d :: t)) -> forall l, P l.
Proof.
  intros H0 H1 H2 H3 HS l. remember (length l) as n eqn:E. revert l E. induction n as [n IH] using lt_wf_ind. intros l E.
  destruct l as [|a [|b [|c [|d t]]]]; auto. apply HS. apply (IH (length t)); [subst; cbn; lia|auto].
Qed.
Lemma bytes_full ds : bytes_of ds = full ds ++ tail_bytes (rest4 ds).
Proof. revert ds. apply (quads (fun ds => bytes_of ds = full ds ++ tail_bytes (rest4 ds))); auto. intros. cbn [bytes_of full rest4 app]. rewrite H. auto. Qed.
Lemma full_len ds : zlen (full ds) = zlen ds / 4 * 3.
Proof. revert ds. apply (quads (fun ds => zlen (full ds) = zlen ds / 4 * 3)); auto. intros. cbn [full]. rewrite !zlen_cons, H. pose proof (zlen_nonneg t). dm. Qed.
Lemma rest4_len ds : zlen (rest4 ds) = zlen ds mod 4.
Proof. revert ds. apply (quads (fun ds => zlen (rest4 ds) = zlen ds mod 4)); auto. intros. cbn [rest4]. rewrite !zlen_cons, H. pose proof (zlen_nonneg t). dm. Qed.
Definition cap (n : Z) : Z := n / 4 * 3 + (if n mod 4 <=? 1 then 0 else n mod 4 - 1).
Lemma bytes_len ds : zlen (bytes_of ds) = cap (zlen ds).
Proof.
  revert ds. apply (quads (fun ds => zlen (bytes_of ds) = cap (zlen ds))); auto. intros. cbn [bytes_of]. rewrite !zlen_cons, H. pose proof (zlen_nonneg t).
  unfold cap. replace ((zlen t + 1 + 1 + 1 + 1) mod 4) with (zlen t mod 4) by dm. destruct (_ <=? 1); dm.
Qed.
Lemma cap_mono a b : 0 <= a <= b -> cap a <= cap b.
Proof. intros. unfold cap. destruct (Z.leb_spec (a mod 4) 1), (Z.leb_spec (b mod 4) 1); dm. Qed.
Lemma cap_div n : 0 <= n -> n / 4 * 3 <= cap n.
Proof. intros. unfold cap. destruct (Z.leb_spec (n mod 4) 1); lia. Qed.
Lemma cap_nonneg n : 0 <= n -> 0 <= cap n.
Proof. intros. pose proof (cap_div n H). dm. Qed.

Fixpoint num (l : list Z) (acc : Z) : Z := match l with [] => acc | d :: t => num t (acc * 64 + d) end.
Definition gb (pend : list Z) : Z := Z.shiftl (num pend 0) (24 - 6 * zlen pend).
Lemma num_snoc l v : forall acc, num (l ++ [v]) acc = num l acc * 64 + v.
Proof. induction l; intros; cbn; auto. Qed.
Lemma gb_step pend v : zlen pend <= 3 -> sextet v -> Z.lor (gb pend) (Z.shiftl v (18 - 6 * zlen pend)) = gb (pend ++ [v]).
Proof.
  intros H Hv. unfold gb. rewrite num_snoc, zlen_app. change (zlen [v]) with 1.
  replace (24 - 6 * zlen pend) with (6 + (18 - 6 * zlen pend)) by lia. rewrite <- Z.shiftl_shiftl by lia.
  rewrite <- Z.shiftl_lor, lor_shiftl_add by (unfold sextet in Hv; change (2 ^ 6) with 64; lia). f_equal. lia.
Qed.
Lemma group_bytes a b c d : sextet a -> sextet b -> sextet c -> sextet d ->
  uwrap 8 (Z.shiftr (gb [a; b; c; d]) 16) = a * 4 + b / 16 /\ uwrap 8 (Z.shiftr (gb [a; b; c; d]) 8) = b mod 16 * 16 + c / 4 /\
  uwrap 8 (gb [a; b; c; d]) = c mod 4 * 64 + d.
Proof.
  unfold sextet, gb, uwrap. intros. cbn [num]. change (24 - 6 * zlen [a; b; c; d]) with 0. rewrite Z.shiftl_0_r, !Z.shiftr_div_pow2 by lia.
  change (2 ^ 16) with 65536. change (2 ^ 8) with 256. repeat split; dm.
Qed.
Lemma group_bytes3 a b c : sextet a -> sextet b -> sextet c ->
  uwrap 8 (Z.shiftr (gb [a; b; c]) 16) = a * 4 + b / 16 /\ uwrap 8 (Z.shiftr (gb [a; b; c]) 8) = b mod 16 * 16 + c / 4.
Proof.
  unfold sextet, gb, uwrap. intros. cbn [num]. change (24 - 6 * zlen [a; b; c]) with 6. rewrite Z.shiftl_mul_pow2, !Z.shiftr_div_pow2 by lia.
  change (2 ^ 16) with 65536. change (2 ^ 8) with 256. change (2 ^ 6) with 64. repeat split; dm.
Qed.
Lemma group_bytes2 a b : sextet a -> sextet b -> uwrap 8 (Z.shiftr (gb [a; b]) 16) = a * 4 + b / 16.
Proof.
  unfold sextet, gb, uwrap. intros. cbn [num]. change (24 - 6 * zlen [a; b]) with 12. rewrite Z.shiftl_mul_pow2, !Z.shiftr_div_pow2 by lia.
  change (2 ^ 16) with 65536. change (2 ^ 8) with 256. change (2 ^ 12) with 4096. dm.
Qed.

(** ** The main loop over characters that are digits (or skipped) *)

Definition plain (d : decoder) (b : Z) : Prop := byte b /\ b <> 61 /\ (isMime d = true \/ 0 <= val (dUrl d) b).
Definition digits (d : decoder) (xs : list Z) : list Z := map (val (dUrl d)) (filter (fun b => 0 <=? val (dUrl d) b) xs).
Lemma digits_cons d x xs : digits d (x :: xs) = if 0 <=? val (dUrl d) x then val (dUrl d) x :: digits d xs else digits d xs.
Proof. unfold digits. cbn [filter]. destruct (0 <=? _); auto. Qed.
Lemma digits_sextet d xs : Forall byte xs -> Forall sextet (digits d xs).
Proof.
  induction 1; [constructor|]. rewrite digits_cons. destruct (Z.leb_spec 0 (val (dUrl d) x)); auto. constructor; auto.
  destruct (val_cases (dUrl d) x H) as [[_ Q]|[[_ Q]|[_ [Hs _]]]]; auto; lia.
Qed.
Lemma digits_len d xs : zlen (digits d xs) <= zlen xs.
Proof. induction xs; [cbn; lia|]. rewrite digits_cons, zlen_cons. destruct (_ <=? _); rewrite ?zlen_cons; lia. Qed.

Lemma loop_ok d r xs : Forall (plain d) xs -> forall p w h z pend fuel src, src = p ++ xs ++ r -> Forall sextet pend -> zlen pend <= 3 ->
  zlen h = zlen (full (pend ++ digits d xs)) ->
  decode_loop d (fromTable (dUrl d)) src (zlen src) (length xs + fuel) (zlen p) (zlen w) (gb pend) (18 - 6 * zlen pend) (w ++ h ++ z) =
  decode_loop d (fromTable (dUrl d)) src (zlen src) fuel (zlen p + zlen xs) (zlen w + zlen h) (gb (rest4 (pend ++ digits d xs)))
    (18 - 6 * zlen (rest4 (pend ++ digits d xs))) (w ++ full (pend ++ digits d xs) ++ z).
Proof.
  intros F. induction F as [|x xs (Bx & Nx & Px) F IH]; intros p w h z pend fuel src Es Fp Lp Hh.
  - change (digits d []) with (@nil Z) in *. rewrite app_nil_r in *.
    assert (E : full pend = [] /\ rest4 pend = pend).
    { destruct pend as [|a [|b [|c [|e t]]]]; auto. rewrite !zlen_cons in Lp. pose proof (zlen_nonneg t). lia. }
    destruct E as [E1 E2]. rewrite E1, E2 in *. change (zlen (@nil Z)) with 0 in *. apply zlen_0 in Hh. subst h. rewrite !Z.add_0_r. auto.
  - cbn [length Nat.add decode_loop]. rewrite zlen_cons.
    assert (LS : zlen src = zlen p + (zlen xs + 1) + zlen r) by (subst src; rewrite !zlen_app, zlen_cons; lia).
    pose proof (zlen_nonneg xs). pose proof (zlen_nonneg r). replace (zlen p <? zlen src) with true by lia.
    rewrite Es at 1. cbn [app]. rewrite at_mid by auto. cbn [bind]. rewrite land255, table_at by auto. cbn [bind].
    rewrite digits_cons in *.
    assert (Es' : src = (p ++ [x]) ++ xs ++ r) by (rewrite <- app_assoc; auto).
    assert (Lx : zlen (p ++ [x]) = zlen p + 1) by (rewrite zlen_app; auto).
    destruct (val_cases (dUrl d) x Bx) as [[? _]|[[_ Q]|[_ [Hs _]]]]; [contradiction| |].
    + rewrite Q in *. change (-1 <? 0) with true. change (-1 =? -2) with false. cbn [Z.leb Z.compare] in *.
      destruct Px as [->|]; [|lia]. rewrite <- Lx. rewrite (IH (p ++ [x]) w h z pend fuel src) by auto.
      rewrite Lx. replace (zlen p + (zlen xs + 1)) with (zlen p + 1 + zlen xs) by lia. auto.
    + set (v := val (dUrl d) x) in *. unfold sextet in Hs. replace (0 <=? v) with true in * by lia. replace (v <? 0) with false by lia.
      rewrite gb_step by auto. set (ds := digits d xs) in *.
      destruct (Z.ltb_spec (18 - 6 * zlen pend - 6) 0) as [Q|Q].
      * destruct pend as [|a [|b [|c [|e t]]]]; try (exfalso; cbn in Q; lia). 2:{ rewrite !zlen_cons in Lp. pose proof (zlen_nonneg t). lia. }
        inversion Fp as [|? ? Fa F1]; subst. inversion F1 as [|? ? Fb F2]; subst. inversion F2 as [|? ? Fc _]; subst.
        cbn [app full rest4] in *. destruct (group_bytes a b c v Fa Fb Fc Hs) as (-> & -> & ->).
        destruct h as [|y0 [|y1 [|y2 h]]]; try (exfalso; rewrite !zlen_cons in Hh; pose proof (zlen_nonneg (full ds)); cbn in Hh; lia).
        cbn [app]. rewrite set_mid by auto. cbn [bind].
        change (w ++ ?u :: y1 :: y2 :: h ++ z) with (w ++ [u] ++ y1 :: y2 :: h ++ z). rewrite (app_assoc w), set_mid by (rewrite zlen_app; auto). cbn [bind].
        change (?l ++ ?u :: y2 :: h ++ z) with (l ++ [u] ++ y2 :: h ++ z). rewrite (app_assoc (w ++ _)), set_mid by (rewrite !zlen_app; cbn; lia). cbn [bind].
        set (t0 := a * 4 + b / 16). set (t1 := b mod 16 * 16 + c / 4). set (t2 := c mod 4 * 64 + v).
        pose proof (IH (p ++ [x]) (((w ++ [t0]) ++ [t1]) ++ [t2]) h z [] fuel (p ++ x :: xs ++ r)) as E.
        change (gb []) with 0 in E. change (18 - 6 * zlen (@nil Z)) with 18 in E. cbn [app] in E. fold ds in E.
        rewrite Lx in E. replace (zlen (((w ++ [t0]) ++ [t1]) ++ [t2])) with (zlen w + 3) in E by (rewrite !zlen_app; cbn; lia).
        assert (Ew : (((w ++ [t0]) ++ [t1]) ++ [t2]) ++ h ++ z = ((w ++ [t0]) ++ [t1]) ++ t2 :: h ++ z) by (rewrite <- app_assoc; auto).
        rewrite Ew in E. rewrite E; auto; [|cbn; lia|rewrite !zlen_cons in Hh; lia].
        rewrite !zlen_cons. f_equal; try lia. rewrite <- !app_assoc. auto.
      * pose proof (IH (p ++ [x]) w h z (pend ++ [v]) fuel src Es') as E. rewrite zlen_app in E. change (zlen [v]) with 1 in E.
        rewrite <- (app_assoc pend) in E. cbn [app] in E. fold ds in E. rewrite Lx in E.
        replace (18 - 6 * zlen pend - 6) with (18 - 6 * (zlen pend + 1)) by lia. rewrite E; auto; try lia.
        -- f_equal. lia.
        -- apply Forall_app. split; auto.
Qed.

(** ** After the loop *)

Definition fin (d : decoder) (src : list Z) (x : Z * Z * Z * Z * list Z) : outcome (Z * list Z) :=
  let '(sp, dp, group, shiftTo, dst) := x in
  let* ' (dp, dst) :=
    if shiftTo =? 6 then
      let* dst := at_set dst dp (uwrap 8 (Z.shiftr group 16)) in Ok (dp + 1, dst)
    else if shiftTo =? 0 then
      let* dst := at_set dst dp (uwrap 8 (Z.shiftr group 16)) in
      let* dst := at_set dst (dp + 1) (uwrap 8 (Z.shiftr group 8)) in Ok (dp + 2, dst)
    else if shiftTo =? 12 then Throw InterruptedException
    else Ok (dp, dst) in
  let* _ := ending d (fromTable (dUrl d)) src (zlen src) (Z.to_nat (zlen src)) sp in
  Ok (dp, dst).
Lemma decoding_fin d src dst : decoding d src dst =
  let* x := decode_loop d (fromTable (dUrl d)) src (zlen src) (Z.to_nat (zlen src)) 0 0 0 18 dst in fin d src x.
Proof. unfold decoding. apply f_equal. reflexivity. Qed.

Lemma fin_ok d src ds sp w h z : Forall sextet ds -> zlen w = zlen (full ds) -> zlen h = zlen (tail_bytes (rest4 ds)) ->
  fin d src (sp, zlen w, gb (rest4 ds), 18 - 6 * zlen (rest4 ds), w ++ h ++ z) =
  if zlen ds mod 4 =? 1 then Throw InterruptedException
  else let* _ := ending d (fromTable (dUrl d)) src (zlen src) (Z.to_nat (zlen src)) sp in Ok (cap (zlen ds), w ++ tail_bytes (rest4 ds) ++ z).
Proof.
  intros F Hw Hh. rewrite full_len in Hw. pose proof (rest4_len ds) as R. pose proof (zlen_nonneg ds). unfold cap. rewrite <- R.
  assert (FR : Forall sextet (rest4 ds)).
  { clear - F. revert ds F. apply (quads (fun ds => Forall sextet ds -> Forall sextet (rest4 ds))); auto. intros a b c e t IH Q. cbn [rest4].
    apply IH. inversion Q; subst. inversion H2; subst. inversion H4; subst. inversion H6; subst. auto. }
  destruct (rest4 ds) as [|a [|b [|c [|e t]]]]; unfold fin.
  - change (zlen (@nil Z)) with 0 in *. change (18 - 6 * 0 =? 6) with false. change (18 - 6 * 0 =? 0) with false. change (18 - 6 * 0 =? 12) with false.
    change (0 =? 1) with false. change (0 <=? 1) with true. cbn [bind tail_bytes app]. cbn [tail_bytes] in Hh. apply zlen_0 in Hh. subst h. rewrite Hw, Z.add_0_r. auto.
  - reflexivity.
  - inversion FR as [|? ? Fa F1]; subst. inversion F1 as [|? ? Fb _]; subst. change (zlen [a; b]) with 2. change (18 - 6 * 2 =? 6) with true. change (2 =? 1) with false. change (2 <=? 1) with false.
    destruct h as [|y [|y2 h]]; try discriminate Hh. 2:{ rewrite !zlen_cons in Hh. pose proof (zlen_nonneg h). cbn in Hh. lia. }
    cbn [app]. rewrite set_mid by auto. cbn [bind]. rewrite group_bytes2 by auto. rewrite Hw. auto.
  - inversion FR as [|? ? Fa F1]; subst. inversion F1 as [|? ? Fb F2]; subst. inversion F2 as [|? ? Fc _]; subst.
    change (zlen [a; b; c]) with 3. change (18 - 6 * 3 =? 6) with false. change (18 - 6 * 3 =? 0) with true. change (3 =? 1) with false. change (3 <=? 1) with false.
    destruct h as [|y [|y2 [|y3 h]]]; try discriminate Hh. 2:{ rewrite !zlen_cons in Hh. pose proof (zlen_nonneg h). cbn in Hh. lia. }
    cbn [app]. rewrite set_mid by auto. cbn [bind]. destruct (group_bytes3 a b c Fa Fb Fc) as [-> ->].
    change (w ++ ?u :: y2 :: z) with (w ++ [u] ++ y2 :: z). rewrite app_assoc, set_mid by (rewrite zlen_app; auto). cbn [bind].
    rewrite Hw, <- app_assoc. auto.
  - exfalso. rewrite !zlen_cons in R. pose proof (zlen_nonneg t). dm.
Qed.

(** The whole of [decoding] on a plain prefix [xs] followed by [r]. *)
Lemma decoding_split d xs r h z : Forall (plain d) xs -> (r <> [] -> exists f, length r = S f) ->
  zlen h = cap (zlen (digits d xs)) -> exists h1 h2, h = h1 ++ h2 /\ zlen h1 = zlen (full (digits d xs)) /\ zlen h2 = zlen (tail_bytes (rest4 (digits d xs))) /\
  decoding d (xs ++ r) (h ++ z) =
  let ds := digits d xs in
  let* x := decode_loop d (fromTable (dUrl d)) (xs ++ r) (zlen (xs ++ r)) (length r) (zlen xs) (zlen (full ds)) (gb (rest4 ds)) (18 - 6 * zlen (rest4 ds))
     (full ds ++ h2 ++ z) in fin d (xs ++ r) x.
Proof.
  intros F _ Hh. rewrite <- bytes_len, bytes_full, zlen_app in Hh. pose proof (zlen_nonneg (full (digits d xs))). pose proof (zlen_nonneg (tail_bytes (rest4 (digits d xs)))).
  destruct (split_len h (zlen (full (digits d xs))) ltac:(lia)) as (h1 & h2 & -> & L1). rewrite zlen_app in Hh. exists h1, h2. split; auto. split; auto. split; [lia|].
  rewrite decoding_fin. replace (Z.to_nat (zlen (xs ++ r))) with (length xs + length r)%nat by (unfold zlen; rewrite Nat2Z.id, app_length; auto).
  pose proof (loop_ok d r xs F [] [] h1 (h2 ++ z) [] (length r) (xs ++ r) eq_refl) as E. cbn [app] in E. change (zlen (@nil Z)) with 0 in E. change (gb []) with 0 in E. change (18 - 6 * 0) with 18 in E.
  rewrite <- app_assoc. rewrite E by (auto; try lia; constructor). rewrite !Z.add_0_l. cbn zeta. rewrite L1. auto.
Qed.
