(** Proofs about the Base64 encoder. *)

From Coq Require Import ZArith List Lia Bool.
From Verif Require Import Base Bits CppText TextSpec TextLemmas Base64Model Base64Spec.
Import ListNotations.
Open Scope Z_scope.

Ltac dm := Z.to_euclidean_division_equations; lia.

(** ** Arrays as prefix, cell, suffix *)

Lemma znth_mid {A} (p : list A) x r : znth (p ++ x :: r) (zlen p) = Some x.
Proof. unfold znth, zlen. replace (_ <? 0) with false by lia. rewrite Nat2Z.id, nth_error_app2, Nat.sub_diag by lia. auto. Qed.
Lemma at_mid {A} (p : list A) x r i : i = zlen p -> at_ (p ++ x :: r) i = Ok x.
Proof. intros ->. unfold at_. rewrite znth_mid. auto. Qed.
Lemma upd_mid {A} (p : list A) x r v : upd (p ++ x :: r) (length p) v = p ++ v :: r.
Proof. induction p; cbn; auto. rewrite IHp. auto. Qed.
Lemma set_mid {A} (p : list A) x r v i : i = zlen p -> at_set (p ++ x :: r) i v = Ok (p ++ v :: r).
Proof. intros ->. unfold at_set, zupd. rewrite znth_mid. unfold zlen. rewrite Nat2Z.id, upd_mid. auto. Qed.
Lemma put_all_ok l : forall w h z, zlen h = zlen l -> put_all (w ++ h ++ z) (zlen w) l = Ok (w ++ l ++ z, zlen w + zlen l).
Proof.
  induction l as [|b l IH]; intros w h z H.
  - apply zlen_0 in H. subst h. cbn. rewrite Z.add_0_r. auto.
  - destruct h as [|y h]; [rewrite zlen_cons in H; pose proof (zlen_nonneg l); change (zlen (@nil Z)) with 0 in H; lia|].
    cbn [put_all app]. rewrite set_mid by auto. cbn [bind]. specialize (IH (w ++ [b]) h z). rewrite <- !app_assoc in IH. cbn [app] in IH.
    rewrite zlen_app in IH. change (zlen [b]) with 1 in IH. rewrite IH by (rewrite !zlen_cons in H; lia). rewrite zlen_cons. do 2 f_equal. lia.
Qed.

(** ** Tables *)

Lemma forall_range (P : Z -> bool) n : forallb P (map Z.of_nat (seq 0 n)) = true -> forall i, 0 <= i < Z.of_nat n -> P i = true.
Proof.
  intros H i Hi. rewrite forallb_forall in H. apply H. apply in_map_iff. exists (Z.to_nat i). split; [lia|]. apply in_seq. lia.
Qed.
Definition oeq (a : outcome Z) (b : Z) : bool := match a with Ok x => x =? b | _ => false end.
Lemma oeq_ok a b : oeq a b = true -> a = Ok b.
Proof. destruct a; cbn; intros; try discriminate. f_equal. lia. Qed.
Lemma index_alpha url i : sextet i -> at_ (indexTable url) i = Ok (alpha url i).
Proof.
  intros H. apply oeq_ok. apply (forall_range (fun i => oeq (at_ (indexTable url) i) (alpha url i)) 64); [|exact H].
  destruct url; vm_compute; reflexivity.
Qed.

(** ** Bits to arithmetic *)

Lemma land255 b : byte b -> Z.land b 255 = b.
Proof. unfold byte. intros. change 255 with (2 ^ 8 - 1). rewrite land_ones_mod by lia. apply Z.mod_small. lia. Qed.
Lemma land63 x : Z.land x 63 = x mod 64.
Proof. exact (land_ones_mod x 6 ltac:(lia)). Qed.
Definition group3 (a b c : Z) : Z := a * 65536 + b * 256 + c.
Lemma group3_lor a b c : byte a -> byte b -> byte c ->
  Z.lor (Z.lor (Z.shiftl (Z.land a 255) 16) (Z.shiftl (Z.land b 255) 8)) (Z.land c 255) = group3 a b c.
Proof.
  intros Ha Hb Hc. rewrite !land255 by auto. unfold byte in *.
  replace (Z.lor (Z.shiftl a 16) (Z.shiftl b 8)) with (Z.shiftl (Z.lor (Z.shiftl a 8) b) 8) by (rewrite Z.shiftl_lor, Z.shiftl_shiftl by lia; auto).
  rewrite !lor_shiftl_add by lia. unfold group3. change (2 ^ 8) with 256. lia.
Qed.
Lemma group3_digits a b c : byte a -> byte b -> byte c ->
  Z.land (Z.shiftr (group3 a b c) 18) 63 = a / 4 /\ Z.land (Z.shiftr (group3 a b c) 12) 63 = a mod 4 * 16 + b / 16 /\
  Z.land (Z.shiftr (group3 a b c) 6) 63 = b mod 16 * 4 + c / 64 /\ Z.land (group3 a b c) 63 = c mod 64.
Proof.
  unfold byte, group3. intros Ha Hb Hc. rewrite !land63, !Z.shiftr_div_pow2 by lia.
  change (2 ^ 18) with 262144. change (2 ^ 12) with 4096. change (2 ^ 6) with 64. repeat split; dm.
Qed.

(** ** rfc4648 *)

Lemma triples (P : list Z -> Prop) : P [] -> (forall a b c t, P t -> P (a :: b :: c :: t)) ->
  forall l, zlen l mod 3 = 0 -> P l.
Proof.
  intros H0 HS l. remember (length l) as n eqn:E. revert l E. induction n as [n IH] using lt_wf_ind. intros l E M.
  destruct l as [|a [|b [|c t]]]; auto; try discriminate M.
  apply HS. apply (IH (length t)); [subst; cbn; lia|auto|]. rewrite !zlen_cons in M. dm.
Qed.
Lemma triples2 (P : list Z -> Prop) : P [] -> (forall a, P [a]) -> (forall a b, P [a; b]) -> (forall a b c t, P t -> P (a :: b :: c :: t)) -> forall l, P l.
Proof.
  intros H0 H1 H2 HS l. remember (length l) as n eqn:E. revert l E. induction n as [n IH] using lt_wf_ind. intros l E.
  destruct l as [|a [|b [|c t]]]; auto. apply HS. apply (IH (length t)); [subst; cbn; lia|auto].
Qed.
Lemma rfc_app url pad l r : zlen l mod 3 = 0 -> rfc4648 url pad (l ++ r) = rfc4648 url false l ++ rfc4648 url pad r.
Proof. revert l. apply (triples (fun l => rfc4648 url pad (l ++ r) = rfc4648 url false l ++ rfc4648 url pad r)); auto. intros. cbn [app rfc4648]. rewrite H. auto. Qed.
Lemma rfc_full url pad l : zlen l mod 3 = 0 -> rfc4648 url pad l = rfc4648 url false l.
Proof. intros H. rewrite <- (app_nil_r l) at 1. rewrite rfc_app by auto. apply app_nil_r. Qed.
Lemma rfc_len url l : zlen l mod 3 = 0 -> zlen (rfc4648 url false l) = zlen l / 3 * 4.
Proof.
  revert l. apply (triples (fun l => zlen (rfc4648 url false l) = zlen l / 3 * 4)); auto. intros. cbn [rfc4648]. rewrite !zlen_cons, H. dm.
Qed.
Lemma rfc_len_pad url l : zlen (rfc4648 url true l) = (zlen l + 2) / 3 * 4.
Proof.
  revert l. apply (triples2 (fun l => zlen (rfc4648 url true l) = (zlen l + 2) / 3 * 4)); auto. intros. cbn [rfc4648]. rewrite !zlen_cons, H. pose proof (zlen_nonneg t). dm.
Qed.
Lemma rfc_len_nopad url l : zlen (rfc4648 url false l) = zlen l / 3 * 4 + (if zlen l mod 3 =? 0 then 0 else zlen l mod 3 + 1).
Proof.
  revert l. apply (triples2 (fun l => zlen (rfc4648 url false l) = zlen l / 3 * 4 + (if zlen l mod 3 =? 0 then 0 else zlen l mod 3 + 1))); auto.
  intros. cbn [rfc4648]. rewrite !zlen_cons, H. pose proof (zlen_nonneg t). replace ((zlen t + 1 + 1 + 1) mod 3) with (zlen t mod 3) by dm.
  destruct (_ =? 0); dm.
Qed.

(** ** One chunk *)

Definition nl_of (e : encoder) (n : Z) (more : bool) : list Z := if (n / 3 * 4 =? lineMax e) && more then newLine e else [].

Lemma split_len {A} (l : list A) n : 0 <= n <= zlen l -> exists a b, l = a ++ b /\ zlen a = n.
Proof.
  intros H. exists (firstn (Z.to_nat n) l), (skipn (Z.to_nat n) l). split; [symmetry; apply firstn_skipn|].
  unfold zlen in *. rewrite firstn_length. lia.
Qed.
Lemma four (l : list Z) : 4 <= zlen l -> exists a b c d t, l = a :: b :: c :: d :: t /\ zlen l = 4 + zlen t.
Proof.
  intros H. destruct l as [|a [|b [|c [|d t]]]]; try (exfalso; cbn in H; lia). exists a, b, c, d, t. split; auto. rewrite !zlen_cons. lia.
Qed.

(** The four digit writes of one block. *)
Lemma block_ok {R} url a b c w d0 d1 d2 d3 z p r src dst cp cd (K : list Z -> outcome R) : byte a -> byte b -> byte c ->
  src = p ++ a :: b :: c :: r -> dst = w ++ d0 :: d1 :: d2 :: d3 :: z -> cp = zlen p -> cd = zlen w ->
  (let* b0 := at_ src cp in let* b1 := at_ src (cp + 1) in let* b2 := at_ src (cp + 2) in
   let g := Z.lor (Z.lor (Z.shiftl (Z.land b0 255) 16) (Z.shiftl (Z.land b1 255) 8)) (Z.land b2 255) in
   let* c0 := at_ (indexTable url) (Z.land (Z.shiftr g 18) 63) in
   let* dst := at_set dst cd c0 in
   let* c1 := at_ (indexTable url) (Z.land (Z.shiftr g 12) 63) in
   let* dst := at_set dst (cd + 1) c1 in
   let* c2 := at_ (indexTable url) (Z.land (Z.shiftr g 6) 63) in
   let* dst := at_set dst (cd + 2) c2 in
   let* c3 := at_ (indexTable url) (Z.land g 63) in
   let* dst := at_set dst (cd + 3) c3 in K dst) =
  K (w ++ rfc4648 url false [a; b; c] ++ z).
Proof.
  intros Ha Hb Hc -> -> -> ->.
  rewrite at_mid by auto. cbn [bind].
  change (p ++ a :: b :: c :: r) with (p ++ [a] ++ b :: c :: r). rewrite app_assoc, at_mid by (rewrite zlen_app; auto). cbn [bind].
  rewrite <- app_assoc. change ([a] ++ b :: c :: r) with ([a; b] ++ c :: r). rewrite app_assoc, at_mid by (rewrite zlen_app; auto). cbn [bind].
  cbn zeta. rewrite group3_lor by auto. destruct (group3_digits a b c Ha Hb Hc) as (-> & -> & -> & ->). unfold byte in *.
  rewrite !index_alpha by (unfold sextet; dm). cbn [bind].
  rewrite set_mid by auto. cbn [bind].
  change (w ++ alpha url (a / 4) :: d1 :: d2 :: d3 :: z) with (w ++ [alpha url (a / 4)] ++ d1 :: d2 :: d3 :: z).
  rewrite app_assoc, set_mid by (rewrite zlen_app; auto). cbn [bind].
  change (((w ++ [alpha url (a / 4)]) ++ alpha url (a mod 4 * 16 + b / 16) :: d2 :: d3 :: z))
    with (((w ++ [alpha url (a / 4)]) ++ [alpha url (a mod 4 * 16 + b / 16)] ++ d2 :: d3 :: z)).
  rewrite app_assoc, set_mid by (rewrite !zlen_app; cbn; lia). cbn [bind].
  change (?l ++ alpha url (b mod 16 * 4 + c / 64) :: d3 :: z) with (l ++ [alpha url (b mod 16 * 4 + c / 64)] ++ d3 :: z).
  rewrite app_assoc, set_mid by (rewrite !zlen_app; cbn; lia). cbn [bind].
  f_equal. rewrite <- !app_assoc. reflexivity.
Qed.

(** The rest of a chunk, after its first block. *)
Lemma inner_rest e end_ pause r ch : zlen ch mod 3 = 0 -> Forall byte ch -> forall p w h z fuel dp src,
  lineMax e <> 0 -> src = p ++ ch ++ r -> pause = zlen p + zlen ch -> zlen h = zlen ch / 3 * 4 -> zlen ch <= Z.of_nat fuel ->
  inner HW e (indexTable (isUrl e)) src end_ pause fuel (zlen p) (zlen w) pause dp (w ++ h ++ z) =
  Ok (pause, dp, w ++ rfc4648 (isUrl e) false ch ++ z).
Proof.
  revert ch. apply (triples (fun ch => Forall byte ch -> forall p w h z fuel dp src,
  lineMax e <> 0 -> src = p ++ ch ++ r -> pause = zlen p + zlen ch -> zlen h = zlen ch / 3 * 4 -> zlen ch <= Z.of_nat fuel ->
  inner HW e (indexTable (isUrl e)) src end_ pause fuel (zlen p) (zlen w) pause dp (w ++ h ++ z) =
  Ok (pause, dp, w ++ rfc4648 (isUrl e) false ch ++ z))).
  - intros _ p w h z fuel dp src HL -> Hp Hh Hf. change (zlen (@nil Z)) with 0 in *. apply zlen_0 in Hh. subst h.
    destruct fuel; cbn [inner]; replace (_ <? _) with false by lia; auto.
  - intros a b c t IH F p w h z fuel dp src HL Hs Hp Hh Hf. inversion F as [|? ? Fa F1]; subst. inversion F1 as [|? ? Fb F2]; subst. inversion F2 as [|? ? Fc F3]; subst.
    rewrite !zlen_cons in Hh, Hf. pose proof (zlen_nonneg t).
    destruct (four h ltac:(dm)) as (d0 & d1 & d2 & d3 & h' & -> & Lh).
    destruct fuel as [|fuel]; [cbn in Hf; lia|]. cbn [inner]. rewrite !zlen_cons at 1. replace (_ <? _) with true by lia.
    cbn [app].
    rewrite (block_ok (isUrl e) a b c w d0 d1 d2 d3 (h' ++ z) p (t ++ r)) by auto.
    rewrite Z.sub_diag. change (Z.quot 0 3 * 4) with 0. replace (0 =? lineMax e) with false by lia. cbn [andb bind].
    pose proof (IH F3 (p ++ [a; b; c]) (w ++ rfc4648 (isUrl e) false [a; b; c]) h' z fuel dp (p ++ a :: b :: c :: t ++ r) HL) as E.
    rewrite !zlen_app in E. change (zlen [a; b; c]) with 3 in E. change (zlen (rfc4648 (isUrl e) false [a; b; c])) with 4 in E.
    rewrite <- !app_assoc in E. rewrite Z.add_0_r. rewrite !zlen_cons in E.
    assert (Lh' : zlen h' = zlen t / 3 * 4) by (rewrite Hh in Lh; clear - Lh; dm).
    rewrite !zlen_cons. rewrite E; auto; lia.
Qed.

Lemma chunk_ok e end_ r ch p w h z src fuel : zlen ch mod 3 = 0 -> 0 < zlen ch -> Forall byte ch -> lineMax e <> 0 ->
  src = p ++ ch ++ r -> zlen h = zlen ch / 3 * 4 + zlen (nl_of e (zlen ch) (zlen p + zlen ch <? end_)) -> zlen ch <= Z.of_nat fuel ->
  inner HW e (indexTable (isUrl e)) src end_ (zlen p + zlen ch) fuel (zlen p) (zlen w) (zlen p) (zlen w) (w ++ h ++ z) =
  Ok (zlen p + zlen ch, zlen w + zlen h, w ++ (rfc4648 (isUrl e) false ch ++ nl_of e (zlen ch) (zlen p + zlen ch <? end_)) ++ z).
Proof.
  intros M Hpos F HL Hs Hh Hf. set (nl := nl_of e (zlen ch) (zlen p + zlen ch <? end_)) in *.
  destruct ch as [|a [|b [|c t]]]; try (exfalso; cbn in M; lia). { exfalso. cbn in Hpos. lia. }
  inversion F as [|? ? Fa F1]; subst. inversion F1 as [|? ? Fb F2]; subst. inversion F2 as [|? ? Fc F3]; subst.
  rewrite !zlen_cons in M, Hf. pose proof (zlen_nonneg t). pose proof (zlen_nonneg nl).
  set (N := zlen (a :: b :: c :: t)) in *. assert (EN : N = 3 + zlen t) by (unfold N; rewrite !zlen_cons; lia).
  destruct (split_len h (N / 3 * 4) ltac:(dm)) as (h1 & hn & -> & L1). rewrite zlen_app in Hh. assert (Ln : zlen hn = zlen nl) by lia.
  destruct (four h1 ltac:(dm)) as (d0 & d1 & d2 & d3 & h' & -> & Lh). rewrite <- app_assoc.
  destruct fuel as [|fuel]; [cbn in Hf; lia|]. cbn [inner]. replace (zlen p <? zlen p + N) with true by lia. cbn [app].
  rewrite (block_ok (isUrl e) a b c w d0 d1 d2 d3 (h' ++ hn ++ z) p (t ++ r)) by auto.
  cbn zeta. replace (zlen p + N - zlen p) with N by lia. rewrite Z.quot_div_nonneg by lia.
  set (q := rfc4648 (isUrl e) false [a; b; c]). assert (Lq : zlen q = 4) by reflexivity.
  assert (X : (if (N / 3 * 4 =? lineMax e) && (zlen p + N <? end_) then put_all (w ++ q ++ h' ++ hn ++ z) (zlen w + N / 3 * 4) (newLine e)
     else Ok (w ++ q ++ h' ++ hn ++ z, zlen w + N / 3 * 4)) = Ok (w ++ q ++ h' ++ nl ++ z, zlen w + N / 3 * 4 + zlen nl)).
  { assert (W : w ++ q ++ h' ++ hn ++ z = (w ++ q ++ h') ++ hn ++ z) by (rewrite !app_assoc; auto).
    assert (LW : zlen w + N / 3 * 4 = zlen (w ++ q ++ h')) by (rewrite !zlen_app; lia).
    unfold nl, nl_of in *. destruct (_ && _).
    - rewrite W, LW, put_all_ok by auto. rewrite <- !app_assoc. auto.
    - apply zlen_0 in Ln. subst hn. change (zlen (@nil Z)) with 0. rewrite Z.add_0_r. auto. }
  rewrite X. cbn [bind].
  pose proof (inner_rest e end_ (zlen p + N) r t ltac:(dm) F3 (p ++ [a; b; c]) (w ++ q) h' (nl ++ z) fuel (zlen w + N / 3 * 4 + zlen nl) (p ++ a :: b :: c :: t ++ r) HL) as E.
  rewrite !zlen_app, Lq in E. change (zlen [a; b; c]) with 3 in E. rewrite <- !app_assoc in E.
  rewrite E; auto; try dm. change (d0 :: d1 :: d2 :: d3 :: h' ++ hn) with ((d0 :: d1 :: d2 :: d3 :: h') ++ hn). rewrite zlen_app. do 3 f_equal; [lia|]. unfold q. rewrite <- app_assoc. cbn [rfc4648 app]. auto.
Qed.

Lemma leftover_ok e p rest w h z : zlen rest < 3 -> Forall byte rest ->
  zlen h = zlen (rfc4648 (isUrl e) (doPadding e) rest) ->
  leftover e (indexTable (isUrl e)) (p ++ rest) (zlen (p ++ rest)) (zlen p) (zlen w) (w ++ h ++ z) =
  Ok (zlen w + zlen h, w ++ rfc4648 (isUrl e) (doPadding e) rest ++ z).
Proof.
  intros H F Hh. unfold leftover. rewrite zlen_app.
  destruct rest as [|a [|b [|c t]]]; [| | |exfalso; rewrite !zlen_cons in H; pose proof (zlen_nonneg t); lia].
  - change (zlen (@nil Z)) with 0. replace (_ <? _) with false by lia. apply zlen_0 in Hh. subst h. cbn. rewrite Z.add_0_r. auto.
  - inversion F as [|? ? Fa _]; subst. change (zlen [a]) with 1. replace (_ <? _) with true by lia. rewrite at_mid by auto. cbn [bind]. rewrite land255 by auto.
    unfold byte in Fa. rewrite land63, Z.shiftr_div_pow2, Z.shiftl_mul_pow2 by lia. change (2 ^ 2) with 4. change (2 ^ 4) with 16.
    rewrite index_alpha by (unfold sextet; dm). cbn [bind]. rewrite Z.eqb_refl. replace ((a * 16) mod 64) with (a mod 4 * 16) by dm.
    rewrite (index_alpha (isUrl e) (a mod 4 * 16)) by (unfold sextet; dm).
    cbn [rfc4648] in *. destruct (doPadding e).
    + destruct (four h) as (d0 & d1 & d2 & d3 & t & -> & L); [rewrite Hh; cbn; lia|]. rewrite Hh in L. change (zlen _) with 4 in L at 1.
      destruct t; [|rewrite zlen_cons in L; pose proof (zlen_nonneg t); lia].
      cbn [app]. rewrite set_mid by auto. cbn [bind].
      change (w ++ ?x :: d1 :: d2 :: d3 :: z) with (w ++ [x] ++ d1 :: d2 :: d3 :: z). rewrite app_assoc, set_mid by (rewrite zlen_app; auto). cbn [bind].
      change (?l ++ ?x :: d2 :: d3 :: z) with (l ++ [x] ++ d2 :: d3 :: z). rewrite app_assoc, set_mid by (rewrite !zlen_app; cbn; lia). cbn [bind].
      change (?l ++ ?x :: d3 :: z) with (l ++ [x] ++ d3 :: z). rewrite app_assoc, set_mid by (rewrite !zlen_app; cbn; lia). cbn [bind].
      rewrite <- !app_assoc. reflexivity.
    + destruct h as [|d0 [|d1 [|d2 h]]]; try discriminate Hh. 2:{ exfalso. rewrite !zlen_cons in Hh. pose proof (zlen_nonneg h). change (zlen (@nil Z)) with 0 in Hh. lia. }
      cbn [app]. rewrite set_mid by auto. cbn [bind].
      change (w ++ ?x :: d1 :: z) with (w ++ [x] ++ d1 :: z). rewrite app_assoc, set_mid by (rewrite zlen_app; auto). cbn [bind].
      rewrite <- !app_assoc. reflexivity.
  - inversion F as [|? ? Fa F1]; subst. inversion F1 as [|? ? Fb _]; subst. change (zlen [a; b]) with 2. replace (_ <? _) with true by lia. rewrite at_mid by auto. cbn [bind]. rewrite land255 by auto.
    unfold byte in Fa, Fb. rewrite land63, Z.shiftr_div_pow2, Z.shiftl_mul_pow2 by lia. change (2 ^ 2) with 4. change (2 ^ 4) with 16.
    rewrite index_alpha by (unfold sextet; dm). cbn [bind]. replace (zlen p + 1 =? zlen p + 2) with false by lia.
    assert (EA : at_ (p ++ [a; b]) (zlen p + 1) = Ok b).
    { change (p ++ [a; b]) with (p ++ [a] ++ [b]). rewrite app_assoc. apply (at_mid (p ++ [a]) b []). rewrite zlen_app. auto. }
    rewrite EA. cbn [bind]. rewrite land255 by auto.
    rewrite land63, Z.shiftr_div_pow2, Z.shiftl_mul_pow2 by lia. change (2 ^ 4) with 16. change (2 ^ 2) with 4.
    replace ((a * 16) mod 64) with (a mod 4 * 16) by dm. replace ((b * 4) mod 64) with (b mod 16 * 4) by dm.
    replace (Z.lor (a mod 4 * 16) (b / 16)) with (a mod 4 * 16 + b / 16).
    2:{ pose proof (lor_shiftl_add (a mod 4) (b / 16) 4 ltac:(lia) ltac:(dm)) as E. rewrite Z.shiftl_mul_pow2 in E by lia. change (2 ^ 4) with 16 in E. auto. }
    rewrite (index_alpha (isUrl e) (a mod 4 * 16 + b / 16)) by (unfold sextet; dm). rewrite (index_alpha (isUrl e) (b mod 16 * 4)) by (unfold sextet; dm).
    cbn [rfc4648] in *. destruct (doPadding e).
    + destruct (four h) as (d0 & d1 & d2 & d3 & t & -> & L); [rewrite Hh; cbn; lia|]. rewrite Hh in L. change (zlen _) with 4 in L at 1.
      destruct t; [|rewrite zlen_cons in L; pose proof (zlen_nonneg t); lia].
      cbn [app]. rewrite set_mid by auto. cbn [bind].
      change (w ++ ?x :: d1 :: d2 :: d3 :: z) with (w ++ [x] ++ d1 :: d2 :: d3 :: z). rewrite app_assoc, set_mid by (rewrite zlen_app; auto). cbn [bind].
      change (?l ++ ?x :: d2 :: d3 :: z) with (l ++ [x] ++ d2 :: d3 :: z). rewrite app_assoc, set_mid by (rewrite !zlen_app; cbn; lia). cbn [bind].
      change (?l ++ ?x :: d3 :: z) with (l ++ [x] ++ d3 :: z). rewrite app_assoc, set_mid by (rewrite !zlen_app; cbn; lia). cbn [bind].
      rewrite <- !app_assoc. reflexivity.
    + destruct h as [|d0 [|d1 [|d2 [|d3 h]]]]; try discriminate Hh. 2:{ exfalso. rewrite !zlen_cons in Hh. pose proof (zlen_nonneg h). change (zlen (@nil Z)) with 0 in Hh. lia. }
      cbn [app]. rewrite set_mid by auto. cbn [bind].
      change (w ++ ?x :: d1 :: d2 :: z) with (w ++ [x] ++ d1 :: d2 :: z). rewrite app_assoc, set_mid by (rewrite zlen_app; auto). cbn [bind].
      change (?l ++ ?x :: d2 :: z) with (l ++ [x] ++ d2 :: z). rewrite app_assoc, set_mid by (rewrite !zlen_app; cbn; lia). cbn [bind].
      rewrite <- !app_assoc. reflexivity.
Qed.
