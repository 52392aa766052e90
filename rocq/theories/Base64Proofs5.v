(** Base64: round trips and the MIME decoder. *)

From Coq Require Import ZArith List Lia Bool.
From Verif Require Import Base Bits CppText TextSpec TextLemmas Base64Model Base64Spec Base64Proofs Base64Proofs2 Base64Proofs3 Base64Proofs4.
Import ListNotations.
Open Scope Z_scope.

Lemma rfc_digits url pad l : Forall byte l -> exists ds pd, rfc4648 url pad l = map (alpha url) ds ++ pd /\ Forall sextet ds /\ bytes_of ds = l /\
  ((pd = [] /\ zlen ds mod 4 <> 1 /\ (pad = true -> zlen ds mod 4 = 0)) \/ (pd = [61; 61] /\ zlen ds mod 4 = 2) \/ (pd = [61] /\ zlen ds mod 4 = 3)).
Proof.
  revert l. apply (triples2 (fun l => Forall byte l -> exists ds pd, rfc4648 url pad l = map (alpha url) ds ++ pd /\ Forall sextet ds /\ bytes_of ds = l /\
  ((pd = [] /\ zlen ds mod 4 <> 1 /\ (pad = true -> zlen ds mod 4 = 0)) \/ (pd = [61; 61] /\ zlen ds mod 4 = 2) \/ (pd = [61] /\ zlen ds mod 4 = 3)))).
  - intros _. exists [], []. repeat split; auto; left; repeat split; auto; discriminate.
  - intros a F. inversion F as [|? ? Ha _]; subst. unfold byte in Ha.
    exists [a / 4; a mod 4 * 16], (if pad then [61; 61] else []). split; [reflexivity|]. split; [repeat constructor; unfold sextet; dm|].
    split; [cbn [bytes_of]; f_equal; dm|]. destruct pad; [right; left; auto|left; repeat split; discriminate].
  - intros a b F. inversion F as [|? ? Ha F']; subst. inversion F' as [|? ? Hb _]; subst. unfold byte in *.
    exists [a / 4; a mod 4 * 16 + b / 16; b mod 16 * 4], (if pad then [61] else []). split; [reflexivity|]. split; [repeat constructor; unfold sextet; dm|].
    split; [cbn [bytes_of]; f_equal; [|f_equal]; dm|]. destruct pad; [right; right; auto|left; repeat split; discriminate].
  - intros a b c t IH F. inversion F as [|? ? Ha F']; subst. inversion F' as [|? ? Hb F2]; subst. inversion F2 as [|? ? Hc F3]; subst. unfold byte in Ha, Hb, Hc.
    destruct (IH F3) as (ds & pd & E & Fd & Eb & C).
    exists (a / 4 :: a mod 4 * 16 + b / 16 :: b mod 16 * 4 + c / 64 :: c mod 64 :: ds), pd. cbn [rfc4648 map app]. rewrite E.
    split; auto. split; [repeat constructor; auto; unfold sextet; clear - Ha Hb Hc; dm|].
    split. { cbn [bytes_of]. rewrite Eb. f_equal; [|f_equal; [|f_equal]]; clear - Ha Hb Hc; dm. }
    rewrite !zlen_cons. replace ((zlen ds + 1 + 1 + 1 + 1) mod 4) with (zlen ds mod 4) by (clear; dm). auto.
Qed.
Lemma rfc_byte url pad l : Forall byte l -> Forall byte (rfc4648 url pad l).
Proof.
  intros F. destruct (rfc_digits url pad l F) as (ds & pd & -> & Fd & _ & C). apply Forall_app. split.
  - rewrite Forall_map. eapply Forall_impl; [|exact Fd]. intros x Hx. apply val_alpha. auto.
  - destruct C as [[-> _]|[[-> _]|[-> _]]]; repeat constructor; unfold byte; lia.
Qed.
Lemma rfc_wf url pad l : Forall byte l -> exists ds, well_formed url (rfc4648 url pad l) ds /\ bytes_of ds = l.
Proof.
  intros F. destruct (rfc_digits url pad l F) as (ds & pd & -> & Fd & Eb & C). exists ds. split; auto. split; auto.
  destruct C as [[-> [? _]]|[[-> ?]|[-> ?]]]; rewrite ?app_nil_r; auto.
Qed.
(** What a well-formed text decodes to. *)
Lemma wf_byte url s ds : well_formed url s ds -> Forall byte s.
Proof.
  intros [F C]. assert (Forall byte (map (alpha url) ds)) by (rewrite Forall_map; eapply Forall_impl; [|exact F]; intros x Hx; apply val_alpha; auto).
  destruct C as [[-> _]|[[-> _]|[-> _]]]; auto; apply Forall_app; split; auto; repeat constructor; unfold byte, pad_char; lia.
Qed.
Lemma decode_wf m url s ds : well_formed url s ds -> zlen s <= int_max - 3 -> decode m (mkDec url false) s = Ok (bytes_of ds).
Proof.
  intros W H. destruct (plain_split (mkDec url false) s (wf_byte _ _ _ W)) as (xs & r & -> & F & S).
  assert (Br := wf_byte _ _ _ W). apply Forall_app in Br. destruct Br as [_ Br].
  rewrite decode_basic by auto. destruct (wf_split url xs r ds F S W) as [-> C]. rewrite digits_len_eq in C by auto.
  destruct C as [[-> M]|[[-> M]|[-> M]]]; cbn [verdict]; [replace (_ =? 1) with false by lia; auto| |]; rewrite M; reflexivity.
Qed.
Lemma roundtrip m url pad l : Forall byte l -> zlen (rfc4648 url pad l) <= int_max - 3 -> decode m (mkDec url false) (rfc4648 url pad l) = Ok l.
Proof. intros F H. destruct (rfc_wf url pad l F) as (ds & W & E). rewrite (decode_wf m url _ ds W H), E. auto. Qed.

(** ** MIME *)

Definition junk (url : bool) (b : Z) : Prop := byte b /\ b <> 61 /\ val url b = -1.
Definition mime_valid (ds r : list Z) : Prop :=
  (r = [] /\ zlen ds mod 4 <> 1) \/ (r = [61; 61] /\ zlen ds mod 4 = 2) \/ (r = [61] /\ zlen ds mod 4 = 3).

Lemma digits_app d a b : digits d (a ++ b) = digits d a ++ digits d b.
Proof. unfold digits. rewrite filter_app, map_app. auto. Qed.
Lemma digits_junk url m l : Forall (junk url) l -> digits (mkDec url m) l = [].
Proof. induction 1 as [|b l (_ & _ & V) F IH]; auto. rewrite digits_cons. cbn [dUrl]. rewrite V. auto. Qed.
Lemma app_split_map (f : Z -> Z) a : forall b ds pd, a ++ b = map f ds ++ pd -> zlen a <= zlen ds ->
  exists d1 d2, ds = d1 ++ d2 /\ a = map f d1 /\ b = map f d2 ++ pd.
Proof.
  induction a as [|x a IH]; intros b ds pd E H.
  - exists [], ds. auto.
  - destruct ds as [|d ds]; [rewrite zlen_cons in H; pose proof (zlen_nonneg a); cbn in H; lia|]. cbn in E. injection E as -> E. rewrite !zlen_cons in H.
    destruct (IH b ds pd E ltac:(lia)) as (d1 & d2 & -> & -> & ->). exists (d :: d1), d2. auto.
Qed.
Lemma folded_digits url n sep l r : 0 < n -> n mod 4 = 0 -> Forall (junk url) sep -> folded n sep l r ->
  forall ds pd, l = map (alpha url) ds ++ pd -> Forall sextet ds -> zlen pd <= 2 -> (pd = [] \/ zlen l mod 4 = 0) ->
  exists body, r = body ++ pd /\ digits (mkDec url true) body = ds /\ Forall (plain (mkDec url true)) body.
Proof.
  intros Hn M Js. induction 1 as [l Hl|a b r La Nb Hf IH]; intros ds pd E Fd Lp C.
  - exists (map (alpha url) ds). split; auto. apply digits_alpha. auto.
  - assert (0 < zlen b) by (destruct b; [contradiction|rewrite zlen_cons; pose proof (zlen_nonneg b); lia]).
    assert (zlen a + zlen b = zlen ds + zlen pd) by (rewrite <- (zlen_map (alpha url) ds), <- !zlen_app, E; auto).
    rewrite zlen_app in C.
    assert (Mb : pd = [] \/ zlen b mod 4 = 0) by (destruct C as [?|C]; auto; right; rewrite La in C; clear - C M; dm).
    assert (zlen a <= zlen ds).
    { destruct Mb as [->|Mb]; [change (zlen (@nil Z)) with 0 in *; lia|]. clear - H H0 Lp Mb. dm. }
    destruct (app_split_map _ _ _ _ _ E H1) as (d1 & d2 & -> & -> & ->). apply Forall_app in Fd. destruct Fd as [F1 F2].
    destruct (IH d2 pd eq_refl F2 Lp Mb) as (body & -> & D & P). exists (map (alpha url) d1 ++ sep ++ body).
    rewrite <- !app_assoc. split; auto. destruct (digits_alpha url true d1 F1) as [D1 P1]. split.
    + rewrite !digits_app, D1, D, digits_junk by auto. auto.
    + apply Forall_app. split; auto. apply Forall_app. split; auto. eapply Forall_impl; [|exact Js]. intros x (B & N & _). split; auto.
Qed.

Lemma mime_scan_ok src xs r : Forall byte src -> Forall (fun b => b <> 61) xs -> (r = [] \/ exists r', r = 61 :: r') ->
  forall p fuel len na, src = p ++ xs ++ r -> (length (xs ++ r) <= fuel)%nat ->
  mime_scan src (zlen src) fuel (zlen p) len na =
  if existsb (fun x => zlen src <=? x) xs then Throw OutOfRange else Ok (len - zlen r - na).
Proof.
  intros Fs Fx Hr. induction Fx as [|x xs Nx Fx IH]; intros p fuel len na E Hf.
  - cbn [existsb]. cbn [app] in E, Hf. destruct Hr as [->|[r' ->]].
    + rewrite app_nil_r in E. subst p. change (zlen (@nil Z)) with 0. destruct fuel; cbn [mime_scan]; rewrite Z.ltb_irrefl; f_equal; lia.
    + assert (zlen src = zlen p + 1 + zlen r') by (rewrite E, zlen_app, zlen_cons; lia). pose proof (zlen_nonneg r').
      destruct fuel as [|f]; [cbn in Hf; lia|]. cbn [mime_scan]. replace (_ <? _) with true by lia. rewrite E at 1. rewrite at_mid by auto. cbn [bind].
      change (Z.land 61 255 =? 61) with true. cbv iota. f_equal. rewrite zlen_cons. lia.
  - assert (zlen src = zlen p + 1 + zlen xs + zlen r) by (rewrite E, zlen_app; cbn [app]; rewrite zlen_cons, zlen_app; lia).
    pose proof (zlen_nonneg xs). pose proof (zlen_nonneg r).
    destruct fuel as [|f]; [cbn in Hf; lia|]. cbn [mime_scan]. replace (_ <? _) with true by lia. rewrite E at 1. change ((x :: xs) ++ r) with (x :: (xs ++ r)). rewrite at_mid by auto. cbn [bind].
    assert (Bx : byte x). { rewrite Forall_forall in Fs. apply Fs. rewrite E. apply in_or_app. right. left. auto. }
    rewrite land255 by auto. replace (x =? 61) with false by lia. cbn [existsb]. unfold byte in Bx.
    destruct (Z.leb_spec (zlen src) x) as [G|G]; cbn [orb].
    + rewrite at_throw by lia. auto.
    + destruct (znth src x) as [v|] eqn:V; [|apply znth_None in V; lia]. replace (at_ src x) with (Ok v) by (unfold at_; rewrite V; auto). cbn [bind].
      assert (byte v). { unfold znth in V. destruct (Z.ltb_spec x 0); [lia|]. apply nth_error_In in V. rewrite Forall_forall in Fs. auto. } unfold byte in *.
      replace (v =? -1) with false by lia. replace (zlen p + 1) with (zlen (p ++ [x])) by (rewrite zlen_app; auto).
      apply IH; [rewrite <- app_assoc; auto|cbn in Hf; lia].
Qed.

Lemma decoding_mime url xs r h z : Forall (plain (mkDec url true)) xs -> mime_valid (digits (mkDec url true) xs) r ->
  zlen h = cap (zlen (digits (mkDec url true) xs)) ->
  decoding (mkDec url true) (xs ++ r) (h ++ z) =
  Ok (cap (zlen (digits (mkDec url true) xs)), bytes_of (digits (mkDec url true) xs) ++ z).
Proof.
  intros F V Hh. set (d := mkDec url true) in *. set (ds := digits d xs) in *.
  assert (Fd : Forall sextet ds) by (apply digits_sextet; eapply Forall_impl; [|exact F]; intros ? Q; apply Q).
  destruct (decoding_split d xs r h z F) as (h1 & h2 & -> & L1 & L2 & E).
  { intros N. destruct r; [contradiction|]. eexists. reflexivity. }
  { auto. }
  fold ds in L1, L2, E. cbn zeta in E. rewrite E. clear E.
  pose proof (rest4_len ds) as R4. pose proof (zlen_nonneg xs) as X0. pose proof (zlen_nonneg r) as R0.
  assert (FIN : forall sp, fin d (xs ++ r) (sp, zlen (full ds), gb (rest4 ds), 18 - 6 * zlen (rest4 ds), full ds ++ h2 ++ z) =
     if zlen ds mod 4 =? 1 then Throw InterruptedException else
     let* _ := ending d (fromTable url) (xs ++ r) (zlen (xs ++ r)) (Z.to_nat (zlen (xs ++ r))) sp in Ok (cap (zlen ds), bytes_of ds ++ z)).
  { intros sp. rewrite (fin_ok d (xs ++ r) ds sp (full ds) h2 z Fd eq_refl L2), bytes_full, <- app_assoc. auto. }
  assert (EN : ending d (fromTable url) (xs ++ r) (zlen (xs ++ r)) (Z.to_nat (zlen (xs ++ r))) (zlen xs + zlen r) = Ok tt).
  { rewrite <- zlen_app. destruct (Z.to_nat _); cbn [ending]; rewrite Z.ltb_irrefl; auto. }
  destruct V as [[-> M]|[[-> M]|[-> M]]].
  - change (zlen (@nil Z)) with 0 in EN. rewrite Z.add_0_r in EN. cbn [length decode_loop]. replace (_ <? _) with false by (rewrite app_nil_r; lia).
    cbn [bind]. rewrite FIN, EN. replace (_ =? 1) with false by lia. auto.
  - change (zlen [61; 61]) with 2 in EN. cbn [length decode_loop]. assert (LS : zlen (xs ++ [61; 61]) = zlen xs + 2) by (rewrite zlen_app; auto).
    replace (zlen xs <? _) with true by lia. rewrite at_mid by auto. cbn [bind]. change (Z.land 61 255) with 61. rewrite table_at by (unfold byte; lia). change (dUrl d) with url.
    assert (val url 61 = -2) as -> by (destruct url; reflexivity). cbn [bind]. change (-2 <? 0) with true. change (-2 =? -2) with true.
    replace (_ =? 6) with true by lia. replace (_ =? _) with false by lia.
    change (xs ++ [61; 61]) with (xs ++ [61] ++ [61]) at 1. rewrite (app_assoc xs [61]), at_mid by (rewrite zlen_app; auto). cbn [bind].
    change (61 =? 61) with true. cbn [bind]. rewrite FIN. replace (zlen xs + 1 + 1) with (zlen xs + 2) by lia. rewrite EN. replace (_ =? 1) with false by lia. auto.
  - change (zlen [61]) with 1 in EN. cbn [length decode_loop]. assert (LS : zlen (xs ++ [61]) = zlen xs + 1) by (rewrite zlen_app; auto).
    replace (zlen xs <? _) with true by lia. rewrite at_mid by auto. cbn [bind]. change (Z.land 61 255) with 61. rewrite table_at by (unfold byte; lia). change (dUrl d) with url.
    assert (val url 61 = -2) as -> by (destruct url; reflexivity). cbn [bind]. change (-2 <? 0) with true. change (-2 =? -2) with true.
    replace (_ =? 6) with false by lia. replace (_ =? 18) with false by lia. cbn [bind]. rewrite FIN, EN. replace (_ =? 1) with false by lia. auto.
Qed.

Lemma decode_mime m url xs r : Forall (plain (mkDec url true)) xs -> mime_valid (digits (mkDec url true) xs) r -> 2 <= zlen (xs ++ r) <= int_max - 3 ->
  decode m (mkDec url true) (xs ++ r) =
  if existsb (fun x => zlen (xs ++ r) <=? x) xs then Throw OutOfRange else Ok (bytes_of (digits (mkDec url true) xs)).
Proof.
  intros F V H. unfold decode, decOutLength. cbn [isMime].
  replace (zlen (xs ++ r) =? 0) with false by lia. replace (zlen (xs ++ r) <? 2) with false by lia.
  rewrite (mime_scan_ok (xs ++ r) xs r) with (p := []); auto.
  - destruct (existsb _ xs); auto. cbn [bind]. change (0 =? 0) with true. cbn [andb].
    replace (zlen (xs ++ r) - zlen r - 0) with (zlen xs) by (rewrite zlen_app; lia). rewrite land3.
    pose proof (zlen_nonneg xs) as X0. pose proof (zlen_nonneg r). rewrite zlen_app in H.
    rewrite out_form; [| lia | pose proof (Z.mod_pos_bound (zlen xs) 4 ltac:(lia)); destruct (Z.eqb_spec (zlen xs mod 4) 0); cbn [negb]; lia]. cbn [bind].
    set (N := 3 * _ - _). set (ds := digits _ xs) in *.
    assert (HN : cap (zlen ds) <= N).
    { pose proof (digits_len (mkDec url true) xs) as DL. fold ds in DL. pose proof (cap_mono (zlen ds) (zlen xs) ltac:(pose proof (zlen_nonneg ds); lia)) as CM.
      enough (cap (zlen xs) <= N) by lia. unfold N, cap. clear - X0. destruct (Z.leb_spec (zlen xs mod 4) 1), (Z.eqb_spec (zlen xs mod 4) 0); cbn [negb]; dm. }
    pose proof (cap_nonneg (zlen ds) (zlen_nonneg ds)). unfold newArray. replace (N <? 0) with false by lia. cbn [bind].
    destruct (split_len (repeat 0 (Z.to_nat N)) (cap (zlen ds))) as (h & z & E0 & Lh); [rewrite zlen_repeat; lia|]. rewrite E0.
    rewrite decoding_mime by auto. cbn [bind]. fold ds.
    assert (Lb : zlen (bytes_of ds) = cap (zlen ds)) by apply bytes_len.
    destruct (Z.eqb_spec (cap (zlen ds)) N) as [E|E]; f_equal.
    + apply (f_equal zlen) in E0. rewrite zlen_repeat, zlen_app in E0 by lia. assert (Z0' : zlen z = 0) by lia. apply zlen_0 in Z0'. subst z. apply app_nil_r.
    + rewrite <- Lb at 1. apply shorten_app.
  - apply Forall_app. split; [eapply Forall_impl; [|exact F]; intros ? Q; apply Q|]. destruct V as [[-> _]|[[-> _]|[-> _]]]; repeat constructor; unfold byte; lia.
  - eapply Forall_impl; [|exact F]. intros ? Q. apply Q.
  - destruct V as [[-> _]|[[-> _]|[-> _]]]; eauto.
  - unfold zlen. rewrite Nat2Z.id. auto.
Qed.

Lemma mime_exact m url pad n sep x out : 0 < n -> n mod 4 = 0 -> Forall (junk url) sep -> Forall byte x ->
  folded n sep (rfc4648 url pad x) out -> zlen out <= int_max - 3 ->
  decode m (mkDec url true) out = if existsb (fun b => negb (b =? 61) && (zlen out <=? b)) out then Throw OutOfRange else Ok x.
Proof.
  intros Hn M Js F Hf Ho. destruct (rfc_digits url pad x F) as (ds & pd & E & Fd & Eb & C).
  destruct (folded_digits url n sep _ _ Hn M Js Hf ds pd E Fd) as (body & -> & D & P).
  - destruct C as [[-> _]|[[-> _]|[-> _]]]; cbn; lia.
  - rewrite E, zlen_app, zlen_map. destruct C as [[-> _]|[[-> C]|[-> C]]]; [auto|right..]; [change (zlen [61; 61]) with 2|change (zlen [61]) with 1]; clear - C; dm.
  - assert (EX : existsb (fun b => negb (b =? 61) && (zlen (body ++ pd) <=? b)) (body ++ pd) = existsb (fun b => zlen (body ++ pd) <=? b) body).
    { rewrite existsb_app. replace (existsb _ pd) with false by (destruct C as [[-> _]|[[-> _]|[-> _]]]; reflexivity). rewrite orb_false_r.
      clear - P. generalize (zlen (body ++ pd)) as N. induction P as [|b body (_ & Nb & _) P IH]; intros N; auto. cbn [existsb]. rewrite IH. replace (b =? 61) with false by lia. auto. }
    rewrite EX.
    assert (L2 : zlen (body ++ pd) = 0 /\ body = [] \/ 2 <= zlen (body ++ pd)).
    { pose proof (digits_len (mkDec url true) body) as DL. rewrite D in DL. rewrite zlen_app. pose proof (zlen_nonneg pd). pose proof (zlen_nonneg ds).
      destruct (Z.eq_dec (zlen ds) 0) as [Z0|Z0].
      - apply zlen_0 in Z0. rewrite Z0 in *. destruct C as [[-> _]|[[-> C]|[-> C]]]; try discriminate C.
        left. cbn [map app] in E. rewrite E in Hf. inversion Hf as [l Hl|a b r Ha Hb Hr Hd]; subst.
        + symmetry in H2. apply app_eq_nil in H2. destruct H2 as [-> _]. auto.
        + apply app_eq_nil in Hd. destruct Hd as [-> _]. change (zlen (@nil Z)) with 0 in Hn. lia.
      - right. assert (zlen ds <> 1 \/ zlen pd >= 1) by (destruct C as [[-> [C _]]|[[-> C]|[-> C]]]; [left; intros Q; rewrite Q in C; apply C; reflexivity|right; cbn; lia..]). lia. }
    destruct L2 as [[L0 ->]|L2].
    + cbn [app] in *. apply zlen_0 in L0. subst pd. cbn [existsb]. cbn in D. subst ds. cbn in Eb. subst x. reflexivity.
    + rewrite decode_mime; auto. { rewrite D, Eb. auto. } rewrite D. destruct C as [[-> [? _]]|[[-> ?]|[-> ?]]]; unfold mime_valid; auto.
Qed.
