(** Proofs about Long: parsing, formatting, toString. *)

From Coq Require Import ZArith List Lia Bool.
From Verif Require Import Base Bits CppText TextSpec TextLemmas BitSpec BitLemmas StringModel StringProofs CharacterModel LongModel LongProofs.
Import ListNotations.
Open Scope Z_scope.

(** ** Parsing *)

Definition lower (s : str) : Prop := Forall (fun c => is_upper_c c = false) s.
(** An optional '+' or '-' followed by a base-[b] numeral. *)
Definition legal_numeral (b : Z) (s : str) (v : Z) : Prop :=
  numeral b s v \/ (exists t, s = 43 :: t /\ numeral b t v) \/
  (exists t w, s = 45 :: t /\ numeral b t w /\ v = - w).

Lemma digit_spec c r : r = 10 \/ r = 16 -> byte_ok c ->
  (0 <= digit (schar c) r -> is_digit r c (digit (schar c) r) /\ is_upper_c c = false) /\
  (forall d, is_digit r c d -> is_upper_c c = false -> digit (schar c) r = d).
Proof.
  unfold byte_ok, is_digit, digit, schar, digit_val, is_digit_c, is_lower_c, is_upper_c.
  intros [-> | ->] Hc; cbn [Z.eqb Pos.eqb].
  - destruct (Z.ltb_spec c 128).
    + destruct ((48 <=? c) && (c <=? 57)) eqn:E; split; try lia.
      * intros _. split; [split; [auto|lia]|lia].
      * intros d [H1 H2] U. inversion H1. auto.
      * intros d [H1 H2] U. destruct ((97 <=? c) && (c <=? 122)) eqn:E2; [inversion H1; lia|].
        rewrite U in H1. discriminate.
    + replace ((48 <=? c) && (c <=? 57)) with false by lia.
      replace ((97 <=? c) && (c <=? 122)) with false by lia.
      replace ((65 <=? c) && (c <=? 90)) with false by lia.
      replace ((48 <=? c - 256) && (c - 256 <=? 57)) with false by lia.
      split; [lia|]. intros d [H1 _]; discriminate.
  - destruct (Z.ltb_spec c 128).
    + destruct ((48 <=? c) && (c <=? 57)) eqn:E; [split; try lia|].
      * intros _. split; [split; [auto|lia]|lia].
      * intros d [H1 H2] U. inversion H1. auto.
      * destruct ((97 <=? c) && (c <=? 102)) eqn:E2; split; try lia.
        -- intros _. replace ((97 <=? c) && (c <=? 122)) with true by lia. split; [split; [auto|lia]|lia].
        -- intros d [H1 H2] U. replace ((97 <=? c) && (c <=? 122)) with true in H1 by lia. inversion H1. auto.
        -- intros d [H1 H2] U. destruct ((97 <=? c) && (c <=? 122)) eqn:E3; [inversion H1; lia|].
           rewrite U in H1. discriminate.
    + replace ((48 <=? c) && (c <=? 57)) with false by lia.
      replace ((97 <=? c) && (c <=? 122)) with false by lia.
      replace ((65 <=? c) && (c <=? 90)) with false by lia.
      replace ((48 <=? c - 256) && (c - 256 <=? 57)) with false by lia.
      replace ((97 <=? c - 256) && (c - 256 <=? 102)) with false by lia.
      split; [lia|]. intros d [H1 _]; discriminate.
Qed.

Definition dval (r : Z) (ds : list Z) (a : Z) : Z := fold_left (fun a d => a * r + d) ds a.
Lemma dval_ge r ds a : 1 <= r -> 0 <= a -> Forall (fun d => 0 <= d) ds -> a <= dval r ds a.
Proof.
  intros Hr. revert a. induction ds as [|d ds IH]; intros a Ha F; [cbn; lia|].
  inversion F; subst. cbn [dval fold_left]. fold (dval r ds (a * r + d)).
  specialize (IH (a * r + d) ltac:(nia) H2). nia.
Qed.

Lemma parse_loop_ok m r L : r = 10 \/ r = 16 -> long_max <= L <= - long_min -> forall cs a,
  0 <= a <= L ->
  (Forall (fun c => 0 <= digit (schar c) r) cs ->
     parse_loop m cs r (- L) (Z.quot (- L) r) (- a) =
       let v := dval r (map (fun c => digit (schar c) r) cs) a in
       Ok (if v <=? L then Some (- v) else None)) /\
  (~ Forall (fun c => 0 <= digit (schar c) r) cs ->
     parse_loop m cs r (- L) (Z.quot (- L) r) (- a) = Ok None).
Proof.
  intros Hr HL. assert (R : 1 <= r <= 16) by lia. unfold long_max, long_min in HL.
  assert (Q : Z.quot (- L) r = - (L / r)).
  { rewrite Z.quot_opp_l by lia. rewrite Z.quot_div_nonneg by lia. auto. }
  rewrite Q. pose proof (Z.div_mod L r ltac:(lia)) as DM. pose proof (Z.mod_pos_bound L r ltac:(lia)) as MB.
  assert (DR : forall c, digit (schar c) r <= 15).
  { intros c. unfold digit. repeat match goal with |- context [if ?b then _ else _] => destruct b eqn:? end; lia. }
  induction cs as [|c cs IH]; intros a Ha; split.
  - intros _. cbn [parse_loop map dval fold_left]. cbv zeta. replace (a <=? L) with true by lia. reflexivity.
  - intros C. exfalso. apply C. constructor.
  - intros F. inversion F as [|? ? Hc Fc]; subst. cbn [parse_loop map dval fold_left]. cbv zeta.
    specialize (DR c). set (d := digit (schar c) r) in *. fold (dval r (map (fun c => digit (schar c) r) cs) (a * r + d)).
    replace (d <? 0) with false by lia.
    assert (FD : Forall (fun d => 0 <= d) (map (fun c => digit (schar c) r) cs)) by (apply Forall_map; exact Fc).
    destruct (Z.ltb_spec (- a) (- (L / r))) as [O|O].
    + pose proof (dval_ge r _ (a * r + d) ltac:(lia) ltac:(nia) FD).
      replace (dval _ _ _ <=? L) with false by nia. reflexivity.
    + assert (A : a * r <= L) by nia.
      unfold smul, sadd, ssub. rewrite (sres_ok m 64 (- a * r)).
      2:{ apply (proj1 (is_long_s _)). unfold is_long, long_min, long_max. nia. }
      cbn [bind]. rewrite (sres_ok m 64 (- L + d)).
      2:{ apply (proj1 (is_long_s _)). unfold is_long, long_min, long_max. nia. }
      cbn [bind]. destruct (Z.ltb_spec (- a * r) (- L + d)) as [O2|O2].
      * pose proof (dval_ge r _ (a * r + d) ltac:(lia) ltac:(nia) FD).
        replace (dval _ _ _ <=? L) with false by nia. reflexivity.
      * rewrite (sres_ok m 64 (- a * r - d)).
        2:{ apply (proj1 (is_long_s _)). unfold is_long, long_min, long_max. nia. }
        cbn [bind]. replace (- a * r - d) with (- (a * r + d)) by lia.
        apply (proj1 (IH (a * r + d) ltac:(nia)) Fc).
  - intros NF. cbn [parse_loop]. cbv zeta. specialize (DR c). set (d := digit (schar c) r) in *.
    destruct (Z.ltb_spec d 0) as [N|N]; auto.
    assert (NF' : ~ Forall (fun c => 0 <= digit (schar c) r) cs) by (intros F; apply NF; constructor; auto).
    destruct (Z.ltb_spec (- a) (- (L / r))) as [O|O]; auto.
    assert (A : a * r <= L) by nia.
    unfold smul, sadd, ssub. rewrite (sres_ok m 64 (- a * r)).
    2:{ apply (proj1 (is_long_s _)). unfold is_long, long_min, long_max. nia. }
    cbn [bind]. rewrite (sres_ok m 64 (- L + d)).
    2:{ apply (proj1 (is_long_s _)). unfold is_long, long_min, long_max. nia. }
    cbn [bind]. destruct (Z.ltb_spec (- a * r) (- L + d)) as [O2|O2]; auto.
    rewrite (sres_ok m 64 (- a * r - d)).
    2:{ apply (proj1 (is_long_s _)). unfold is_long, long_min, long_max. nia. }
    cbn [bind]. replace (- a * r - d) with (- (a * r + d)) by lia.
    apply (proj2 (IH (a * r + d) ltac:(nia)) NF').
Qed.

Lemma digits_numeral r t : r = 10 \/ r = 16 -> Forall byte_ok t -> t <> [] ->
  Forall (fun c => 0 <= digit (schar c) r) t ->
  numeral r t (dval r (map (fun c => digit (schar c) r) t) 0) /\ lower t.
Proof.
  intros Hr B Hne F. split.
  - split; auto. eexists. split; [|reflexivity]. clear Hne. induction F as [|c t Hc F IH]; [constructor|].
    inversion B; subst. constructor; auto. apply digit_spec; auto.
  - clear Hne. induction F as [|c t Hc F IH]; constructor; inversion B; subst; [apply (digit_spec c r); auto|apply IH; auto].
Qed.
Lemma numeral_digits_nn r t v : r = 10 \/ r = 16 -> Forall byte_ok t -> numeral r t v -> lower t ->
  Forall (fun c => 0 <= digit (schar c) r) t /\ dval r (map (fun c => digit (schar c) r) t) 0 = v.
Proof.
  intros Hr B [Hne (ds & F & ->)] Lo. 
  assert (H : map (fun c => digit (schar c) r) t = ds /\ Forall (fun c => 0 <= digit (schar c) r) t).
  { clear Hne. induction F as [|c d t ds Hc F IH]; [auto|]. inversion B; subst. inversion Lo; subst.
    destruct IH as [I1 I2]; auto. destruct (digit_spec c r Hr ltac:(auto)) as [_ D]. specialize (D d Hc ltac:(auto)).
    split; [cbn [map]; rewrite D, I1; auto|]. constructor; auto. rewrite D. destruct Hc as [Hc _]. apply digit_val_range in Hc. lia. }
  destruct H as [-> H]. split; auto.
Qed.

(** The text after the sign, and the accumulation limit. *)
Lemma parseLong_body m r (neg : bool) t : r = 10 \/ r = 16 -> Forall byte_ok t -> t <> [] ->
  let L := if neg then - long_min else long_max in
  let res := let* o := parse_loop m t r (- L) (Z.quot (- L) r) 0 in
             match o with None => Ok (-1) | Some v => if neg then Ok v else sneg m 64 v end in
  (forall w, numeral r t w -> lower t -> res = Ok (if w <=? L then (if neg then - w else w) else -1)) /\
  (~ (exists w, numeral r t w /\ lower t) -> res = Ok (-1)).
Proof.
  intros Hr B Hne L res.
  assert (HL : long_max <= L <= - long_min) by (unfold L, long_max, long_min; destruct neg; lia).
  destruct (parse_loop_ok m r L Hr HL t 0 ltac:(unfold long_max in HL; lia)) as [P1 P2]. change (- 0) with 0 in *.
  split.
  - intros w N Lo. destruct (numeral_digits_nn r t w Hr B N Lo) as [F E].
    unfold res. rewrite P1 by auto. cbv zeta. rewrite E. cbn [bind].
    pose proof (numeral_range r t w ltac:(lia) N) as Hw.
    destruct (Z.leb_spec w L) as [Hl|Hl]; auto. destruct neg; auto.
    unfold sneg. rewrite sres_ok; [f_equal; lia|].
    apply (proj1 (is_long_s _)). unfold L in Hl. unfold is_long, long_min, long_max in *. lia.
  - intros N. unfold res. rewrite P2; auto. intros F. apply N. eexists. apply digits_numeral; auto.
Qed.

Lemma sdiv_limit (neg : bool) r : r = 10 \/ r = 16 ->
  sdiv 64 (if neg then LMIN else - LMAX) r = Ok (Z.quot (- (if neg then - long_min else long_max)) r).
Proof. intros [-> | ->]; destruct neg; reflexivity. Qed.

Definition parse_outcome (v : Z) : Z := if (long_min <=? v) && (v <=? long_max) then v else -1.
Lemma is_digit_ge48 b c d : is_digit b c d -> 48 <= c.
Proof. intros [H _]. revert H. unfold digit_val, is_digit_c, is_lower_c, is_upper_c.
  destruct ((48 <=? c) && (c <=? 57)) eqn:?; [lia|].
  destruct ((97 <=? c) && (c <=? 122)) eqn:?; [lia|].
  destruct ((65 <=? c) && (c <=? 90)) eqn:?; [lia|]. discriminate.
Qed.
Lemma numeral_hd48 b c t v : numeral b (c :: t) v -> 48 <= c.
Proof. intros [_ (ds & F & _)]. inversion F; subst. eapply is_digit_ge48; eauto. Qed.

Lemma parseLong_exact m r s : r = 10 \/ r = 16 -> Forall byte_ok s ->
  (forall v, legal_numeral r s v -> lower s -> parseLong m s r = Ok (parse_outcome v)) /\
  (~ (exists v, legal_numeral r s v /\ lower s) -> parseLong m s r = Ok (-1)).
Proof.
  intros Hr B. destruct s as [|c t].
  { split; [|reflexivity]. intros v [[H _]|[(t & H & _)|(t & w & H & _)]]; congruence. }
  unfold parseLong. cbv zeta. rewrite sdiv_limit by auto. cbn [bind].
  inversion B as [|? ? Bc Bt]; subst. unfold byte_ok in Bc.
  assert (Lt : (zlen (c :: t) =? 1) = match t with [] => true | _ => false end).
  { rewrite zlen_cons. destruct t; [reflexivity|]. rewrite zlen_cons. pose proof (zlen_nonneg t). lia. }
  rewrite Lt. clear Lt.
  assert (POUT : forall (neg : bool) w, 0 <= w -> (if w <=? (if neg then - long_min else long_max) then if neg then - w else w else -1)
            = parse_outcome (if neg then - w else w)).
  { intros neg w Hw. unfold parse_outcome, long_min, long_max. destruct neg;
    match goal with |- (if ?a then _ else _) = (if ?b then _ else _) => replace b with a by lia end; reflexivity. }
  unfold schar. destruct (Z.ltb_spec c 128) as [C|C].
  2:{ (* high byte *)
      replace (c - 256 <? 48) with true by lia. replace (c - 256 =? 45) with false by lia.
      replace (c - 256 =? 43) with false by lia. cbn [andb negb]. split; auto.
      intros v H Lo. exfalso. destruct H as [H|[(t' & H & _)|(t' & w & H & _)]]; try (inversion H; lia).
      destruct H as [_ (ds & F & _)]. inversion F as [|? ? ? ? [Hd _] _]; subst.
      revert Hd. unfold digit_val, is_digit_c, is_lower_c, is_upper_c.
      destruct ((48 <=? c) && (c <=? 57)) eqn:?; [lia|].
      destruct ((97 <=? c) && (c <=? 122)) eqn:?; [lia|].
      destruct ((65 <=? c) && (c <=? 90)) eqn:?; [lia|]. discriminate. }
  destruct (Z.ltb_spec c 48) as [S|S]; cbn [andb].
  - destruct (Z.eqb_spec c 45) as [->|N45]; [|destruct (Z.eqb_spec c 43) as [->|N43]]; cbn [andb negb].
    + (* minus *)
      destruct t as [|c' t'].
      { split; auto. intros v H Lo. exfalso. destruct H as [H|[(t & H & _)|(t & w & H & N & _)]];
        [apply numeral_hd48 in H; lia|inversion H|]. inversion H; subst. destruct N as [N _]; congruence. }
      destruct (parseLong_body m r true (c' :: t') Hr Bt ltac:(discriminate)) as [P1 P2]. cbv zeta iota in P1, P2. change (- - long_min) with LMIN in *. change (- long_max) with (- LMAX) in *.
      split.
      * intros v H Lo. destruct H as [H|[(t & H & _)|(t & w & H & N & ->)]];
          [apply numeral_hd48 in H; lia|inversion H|]. inversion H; subst. inversion Lo; subst.
        rewrite (P1 w) by auto. pose proof (numeral_range r _ w ltac:(lia) N).
        f_equal. apply (POUT true); auto.
      * intros N. apply P2. intros (w & Hw & Lw). apply N. exists (- w). split; [|constructor; auto].
        right; right. exists (c' :: t'), w. auto.
    + (* plus *)
      destruct t as [|c' t'].
      { split; auto. intros v H Lo. exfalso. destruct H as [H|[(t & H & N)|(t & w & H & N & _)]];
        [apply numeral_hd48 in H; lia| |inversion H]. inversion H; subst. destruct N as [N _]; congruence. }
      destruct (parseLong_body m r false (c' :: t') Hr Bt ltac:(discriminate)) as [P1 P2]. cbv zeta iota in P1, P2. change (- - long_min) with LMIN in *. change (- long_max) with (- LMAX) in *.
      split.
      * intros v H Lo. destruct H as [H|[(t & H & N)|(t & w & H & N & ->)]];
          [apply numeral_hd48 in H; lia| |inversion H]. inversion H; subst. inversion Lo; subst.
        rewrite (P1 v) by auto. pose proof (numeral_range r _ v ltac:(lia) N).
        f_equal. apply (POUT false); auto.
      * intros N. apply P2. intros (w & Hw & Lw). apply N. exists w. split; [|constructor; auto].
        right; left. exists (c' :: t'). auto.
    + split; auto. intros v H Lo. exfalso. destruct H as [H|[(t' & H & _)|(t' & w & H & _)]];
       [apply numeral_hd48 in H; lia|inversion H; lia|inversion H; lia].
  - (* no sign *)
    destruct (parseLong_body m r false (c :: t) Hr B ltac:(discriminate)) as [P1 P2]. cbv zeta iota in P1, P2. change (- long_max) with (- LMAX) in *.
    split.
    + intros v H Lo. destruct H as [H|[(t' & H & _)|(t' & w & H & _)]]; [|inversion H; lia|inversion H; lia].
      rewrite (P1 v) by auto. pose proof (numeral_range r _ v ltac:(lia) H). f_equal. apply (POUT false); auto.
    + intros N. apply P2. intros (w & Hw & Lw). apply N. exists w. split; auto. left; auto.
Qed.

(** Any other radix (outside 0, -1): always -1, even for legal numerals. *)
Lemma parseLong_other m r s : r <> 10 -> r <> 16 -> r <> 0 -> r <> -1 -> parseLong m s r = Ok (-1).
Proof.
  intros N10 N16 N0 N1. destruct s as [|c t]; [reflexivity|]. unfold parseLong. cbv zeta.
  assert (D : forall (neg : bool), exists q, sdiv 64 (if neg then LMIN else - LMAX) r = Ok q).
  { intros neg. unfold sdiv. replace (r =? 0) with false by lia. 
    set (l := if neg then LMIN else - LMAX).
    assert (Hl : Z.abs l <= 2 ^ 63) by (unfold l, LMIN, LMAX, long_min, long_max; destruct neg; lia).
    replace (in_sb 64 (Z.quot l r)) with true; [eauto|]. symmetry. apply in_s_b.
    apply (proj1 (is_long_s _)). unfold is_long, long_min, long_max.
    destruct (Z.eq_dec r 1) as [->|Nr1].
    { rewrite Z.quot_1_r. unfold l, LMIN, LMAX, long_min, long_max; destruct neg; lia. }
    assert (A : Z.abs (Z.quot l r) < 2 ^ 63); [|lia].
    rewrite <- Z.quot_abs by lia. rewrite Z.quot_div_nonneg by lia.
    apply Z.div_lt_upper_bound; lia. }
  destruct (_ && negb _ && negb _); [reflexivity|]. destruct (_ && _) eqn:E; [reflexivity|].
  destruct (D ((schar c <? 48) && (schar c =? 45))) as [q ->]. cbn [bind].
  assert (P : forall cs l, cs <> [] -> parse_loop m cs r l q 0 = Ok None).
  { intros [|c' t'] l H; [congruence|]. cbn [parse_loop]. unfold digit.
    replace (r =? 10) with false by lia. replace (r =? 16) with false by lia. reflexivity. }
  rewrite P; [reflexivity|]. destruct (schar c <? 48) eqn:S; [|discriminate].
  destruct t; [|discriminate]. rewrite zlen_cons in E. change (zlen (@nil Z)) with 0 in E. cbn in E. discriminate.
Qed.

(** ** decode *)

Lemma startsWith_at_app a b p : startsWith_at (a ++ b) p (zlen a) = prefixb p b.
Proof.
  unfold startsWith_at. rewrite starts_loop_spec. pose proof (zlen_nonneg a). pose proof (zlen_nonneg b).
  replace (zlen a <? 0) with false by lia. rewrite zlen_app.
  replace (Z.to_nat (zlen a)) with (length a) by (unfold zlen; lia).
  rewrite skipn_app, skipn_all, Nat.sub_diag. cbn [app skipn].
  destruct (_ || _) eqn:E; auto. symmetry. apply not_true_is_false. intros P.
  apply prefixb_spec in P. destruct P as [t ->]. rewrite zlen_app in *. pose proof (zlen_nonneg t). lia.
Qed.
Lemma is_digit_bytes r c d : is_digit r c d -> 48 <= c <= 122.
Proof.
  intros [H _]. revert H. unfold digit_val, is_digit_c, is_lower_c, is_upper_c.
  destruct ((48 <=? c) && (c <=? 57)) eqn:?; [lia|].
  destruct ((97 <=? c) && (c <=? 122)) eqn:?; [lia|].
  destruct ((65 <=? c) && (c <=? 90)) eqn:?; [lia|]. discriminate.
Qed.
Lemma numeral_bytes r s v : numeral r s v -> Forall byte_ok s.
Proof.
  intros [_ (ds & F & _)]. induction F as [|c d s ds Hc F IH]; constructor; auto.
  apply is_digit_bytes in Hc. unfold byte_ok. lia.
Qed.
Definition decode_prefix (r : Z) (pre t : str) : Prop :=
  (r = 16 /\ (pre = [48; 120] \/ pre = [48; 88] \/ pre = [35])) \/
  (r = 10 /\ pre = [] /\ (hd 0 t = 48 -> t = [48])).
Lemma decode_ok m sg pre r t w : sg = [] \/ sg = [45] \/ sg = [43] -> decode_prefix r pre t ->
  numeral r t w -> lower t -> zlen t <= 1000000 ->
  decode m (sg ++ pre ++ t) = if (match sg with [45] => true | _ => false end)
     then sneg m 64 (parse_outcome w) else Ok (parse_outcome w).
Proof.
  intros Hsg Hpre N Lo Ht.
  assert (Hr : r = 10 \/ r = 16) by (destruct Hpre as [[-> _]|[-> _]]; auto).
  destruct (parseLong_exact m r t Hr (numeral_bytes _ _ _ N)) as [P _].
  specialize (P w (or_introl N) Lo).
  assert (Hc : exists c u, t = c :: u /\ 48 <= c).
  { pose proof N as N'. destruct t as [|c u]; [destruct N'; congruence|]. exists c, u. split; auto. eapply numeral_hd48; eauto. }
  destruct Hc as (c & u & Et & Hc48).
  assert (NE : 1 <= zlen t) by (subst; rewrite zlen_cons; pose proof (zlen_nonneg u); lia).
  assert (D : forall (a : str) (neg : bool), zlen a <= 1000 ->
     (let* t0 := getStringFromIndex (a ++ pre ++ t) (zlen (a ++ pre)) in
      let* r0 := parseLong m t0 r in if neg then sneg m 64 r0 else Ok r0) =
     if neg then sneg m 64 (parse_outcome w) else Ok (parse_outcome w)).
  { intros a neg Ha.
    assert (Hp : zlen pre <= 2) by (destruct Hpre as [(_ & [-> |[-> | ->]])|(_ & -> & _)]; unfold zlen; cbn; lia).
    rewrite app_assoc. rewrite getStringFromIndex_in.
    - replace (Z.to_nat (zlen (a ++ pre))) with (length (a ++ pre)) by (unfold zlen; lia).
      rewrite skipn_app, skipn_all, Nat.sub_diag. cbn [app skipn bind]. rewrite P. reflexivity.
    - unfold small, int_max. rewrite !zlen_app. lia.
    - rewrite !zlen_app. pose proof (zlen_nonneg a). pose proof (zlen_nonneg pre). lia. }
  assert (SGN : forall a, startsWith_at (a ++ t) [45] (zlen a) = false /\ startsWith_at (a ++ t) [43] (zlen a) = false).
  { intros a. rewrite !startsWith_at_app, Et. cbn [prefixb]. replace (45 =? c) with false by lia. replace (43 =? c) with false by lia. auto. }
  (* the body after the sign has been read *)
  assert (BODY : forall (a : str) (neg : bool), zlen a <= 1000 ->
    (let '(index, radix) :=
        if startsWith_at (a ++ pre ++ t) [48; 120] (zlen a) || startsWith_at (a ++ pre ++ t) [48; 88] (zlen a) then (zlen a + 2, 16)
        else if startsWith_at (a ++ pre ++ t) [35] (zlen a) then (zlen a + 1, 16)
        else if startsWith_at (a ++ pre ++ t) [48] (zlen a) && (1 + zlen a <? zlen (a ++ pre ++ t)) then (zlen a + 1, 8)
        else (zlen a, 10) in
      if startsWith_at (a ++ pre ++ t) [45] index || startsWith_at (a ++ pre ++ t) [43] index then Ok (-1)
      else
        let* t := getStringFromIndex (a ++ pre ++ t) index in
        let* r := parseLong m t radix in
        if neg then sneg m 64 r else Ok r) = if neg then sneg m 64 (parse_outcome w) else Ok (parse_outcome w)).
  { intros a neg Ha. rewrite !startsWith_at_app. specialize (D a neg Ha).
    assert (FIN : (if startsWith_at (a ++ pre ++ t) [45] (zlen (a ++ pre)) || startsWith_at (a ++ pre ++ t) [43] (zlen (a ++ pre)) then Ok (-1)
      else let* t := getStringFromIndex (a ++ pre ++ t) (zlen (a ++ pre)) in
        let* r := parseLong m t r in
        if neg then sneg m 64 r else Ok r) = if neg then sneg m 64 (parse_outcome w) else Ok (parse_outcome w)).
    { destruct (SGN (a ++ pre)) as [S1 S2]. rewrite <- app_assoc in S1, S2. rewrite S1, S2. exact D. }
    clear D. rewrite zlen_app in FIN.
    destruct Hpre as [(-> & [-> |[-> | ->]])|(-> & -> & Z0)]; cbn [app] in FIN |- *.
    - cbn [prefixb Z.eqb Pos.eqb andb orb]. exact FIN.
    - cbn [prefixb Z.eqb Pos.eqb andb orb]. exact FIN.
    - cbn [prefixb Z.eqb Pos.eqb andb orb]. exact FIN.
    - change (zlen (@nil Z)) with 0 in FIN. rewrite Z.add_0_r in FIN.
      destruct (Z.eq_dec c 48) as [->|N48].
      + rewrite Et in Z0. cbn [hd] in Z0. specialize (Z0 eq_refl). inversion Z0; subst u. rewrite Et in *.
        cbn [prefixb Z.eqb Pos.eqb andb orb]. rewrite zlen_app. change (zlen [48]) with 1.
        replace (1 + zlen a <? zlen a + 1) with false by lia. exact FIN.
      + rewrite Et in *. cbn [prefixb]. replace (48 =? c) with false by lia. cbn [andb orb].
        destruct (Z.eqb_spec 35 c); [lia|]. cbn [andb]. exact FIN. }
  destruct Hsg as [-> |[-> | ->]].
  - (* no sign *)
    cbn [app]. specialize (BODY [] false ltac:(unfold zlen; cbn; lia)). change (zlen (@nil Z)) with 0 in BODY. cbn [app] in BODY.
    unfold decode. 
    assert (E : exists c0 u0, pre ++ t = c0 :: u0 /\ c0 <> 45 /\ c0 <> 43).
    { destruct Hpre as [(_ & [-> |[-> | ->]])|(_ & -> & _)]; cbn [app]; rewrite ?Et; do 2 eexists; (split; [reflexivity|lia]). }
    destruct E as (c0 & u0 & E & N1 & N2). rewrite E in *.
    replace (c0 =? 45) with false by lia. replace (c0 =? 43) with false by lia. cbn [orb]. exact BODY.
  - exact (BODY [45] true ltac:(unfold zlen; cbn; lia)).
  - exact (BODY [43] false ltac:(unfold zlen; cbn; lia)).
Qed.

(** ** Power-of-two formatting *)

(** The [n] low base-2^s digits of [v], most significant first. *)
Fixpoint digs (s v : Z) (n : nat) : list Z :=
  match n with O => [] | S k => digs s (Z.shiftr v s) k ++ [v mod 2 ^ s] end.
Lemma digs_length s n : forall v, length (digs s v n) = n.
Proof. induction n as [|n IH]; intros v; cbn [digs]; auto. rewrite app_length, IH. cbn; lia. Qed.
Lemma digs_value s n : 0 < s -> forall v, numval (2 ^ s) (digs s v n) = v mod 2 ^ (s * Z.of_nat n).
Proof.
  intros Hs. induction n as [|n IH]; intros v; cbn [digs].
  - rewrite Z.mul_0_r. cbn. rewrite Z.mod_1_r. reflexivity.
  - rewrite numval_snoc, IH. replace (s * Z.of_nat (S n)) with (s + s * Z.of_nat n) by lia.
    rewrite Z.pow_add_r by lia. pose proof (pow2_pos s ltac:(lia)). pose proof (pow2_pos (s * Z.of_nat n) ltac:(lia)).
    rewrite Z.rem_mul_r by lia. rewrite Z.shiftr_div_pow2 by lia. lia.
Qed.
Lemma digs_range s n : 0 < s -> forall v, Forall (fun d => 0 <= d < 2 ^ s) (digs s v n).
Proof.
  intros Hs. induction n as [|n IH]; intros v; cbn [digs]; [constructor|].
  apply Forall_app. split; auto. constructor; auto. apply Z.mod_pos_bound. apply pow2_pos; lia.
Qed.
Lemma digs_hd s n : 0 < s -> forall v, hd 0 (digs s v (S n)) = Z.shiftr v (s * Z.of_nat n) mod 2 ^ s.
Proof.
  intros Hs. induction n as [|n IH]; intros v.
  - rewrite Z.mul_0_r, Z.shiftr_0_r. reflexivity.
  - change (digs s v (S (S n))) with (digs s (Z.shiftr v s) (S n) ++ [v mod 2 ^ s]).
    specialize (IH (Z.shiftr v s)). pose proof (digs_length s (S n) (Z.shiftr v s)) as L.
    destruct (digs s (Z.shiftr v s) (S n)) as [|d t]; [discriminate|]. cbn [hd app] in *. rewrite IH.
    rewrite Z.shiftr_shiftr by lia. do 2 f_equal. lia.
Qed.

Lemma upd_skipn (buf : str) (k : nat) x : (k < length buf)%nat ->
  skipn k (upd buf k x) = x :: skipn (S k) buf.
Proof.
  revert buf. induction k as [|k IH]; intros [|b buf] H; cbn in H; try lia; [reflexivity|].
  cbn [upd skipn]. rewrite IH by lia. reflexivity.
Qed.
Lemma land_wrap_digit v s : 0 < s <= 31 -> Z.land (wrap 32 v) (2 ^ s - 1) = v mod 2 ^ s.
Proof.
  intros Hs. rewrite land_ones_mod by lia.
  assert (Q : forall y, (y mod 2 ^ 32) mod 2 ^ s = y mod 2 ^ s).
  { intros y. replace (2 ^ 32) with (2 ^ s * 2 ^ (32 - s)) by (rewrite <- Z.pow_add_r by lia; f_equal; lia).
    pose proof (pow2_pos s ltac:(lia)). pose proof (pow2_pos (32 - s) ltac:(lia)).
    rewrite Z.rem_mul_r by lia. rewrite (Z.mul_comm (2 ^ s)), Z.mod_add by lia. apply Zmod_mod. }
  rewrite <- (Q (wrap 32 v)), wrap_mod by lia. apply Q.
Qed.
Lemma format_loop_ok s : 0 < s <= 31 -> forall n v buf, (n <= length buf)%nat -> (0 < n)%nat ->
  (forall j, 0 < j < Z.of_nat n -> Z.shiftr v (s * j) <> 0) ->
  format_loop n v s buf (Z.of_nat n) = Ok (map digit_char (digs s v n) ++ skipn n buf).
Proof.
  intros Hs. induction n as [|n IH]; intros v buf Hl Hp Hv; [lia|].
  cbn [format_loop]. rewrite land_wrap_digit by auto.
  replace (Z.of_nat (S n) - 1) with (Z.of_nat n) by lia.
  rewrite at_set_ok by (unfold zlen; lia). cbn [bind].
  assert (U : zupd buf (Z.of_nat n) (digit_char (v mod 2 ^ s)) = upd buf n (digit_char (v mod 2 ^ s))).
  { unfold zupd. rewrite Nat2Z.id. reflexivity. }
  rewrite U. cbn [digs]. rewrite map_app, <- app_assoc. cbn [map app].
  destruct n as [|n].
  - rewrite andb_false_r. cbn [digs map app]. destruct buf as [|b buf]; [cbn in Hl; lia|]. reflexivity.
  - replace (Z.shiftr v s =? 0) with false.
    2:{ symmetry. apply Z.eqb_neq. specialize (Hv 1 ltac:(lia)). rewrite Z.mul_1_r in Hv. auto. }
    replace (0 <? Z.of_nat (S n)) with true by lia. cbn [negb andb].
    rewrite IH; [|rewrite upd_length; lia|lia|].
    + rewrite upd_skipn by lia. reflexivity.
    + intros j Hj. rewrite Z.shiftr_shiftr by lia. replace (s + s * j) with (s * (j + 1)) by lia. apply Hv. lia.
Qed.

(** Number of characters produced. *)
Definition out_chars (x s : Z) (n : Z) : Prop :=
  (x = 0 /\ n = 1) \/ exists k, highest_at 64 x k /\ s * (n - 1) <= k < s * n.
Lemma format_ok m x s : is_long x -> 0 < s <= 5 -> exists t n, toUnsignedString0 m x s = Ok t /\
  out_chars x s n /\ zlen t = n /\ canonical_unsigned (2 ^ s) t (x mod 2 ^ (s * n)).
Proof.
  intros Hx Hs. destruct (nlz_ok m x Hx) as (z & Ez & Nz). unfold toUnsignedString0. rewrite Ez. cbn [bind].
  assert (P32 : 2 <= 2 ^ s <= 32).
  { split; [apply (Z.pow_le_mono_r 2 1 s); lia|apply (Z.pow_le_mono_r 2 s 5); lia]. }
  assert (K : forall n, (0 < n)%nat -> (x = 0 -> n = 1%nat) -> (forall k, highest_at 64 x k -> s * (Z.of_nat n - 1) <= k < s * Z.of_nat n) ->
    exists t, format_loop n x s (repeat 48 n) (Z.of_nat n) = Ok t /\
    zlen t = Z.of_nat n /\ canonical_unsigned (2 ^ s) t (x mod 2 ^ (s * Z.of_nat n))).
  { intros n Hn Hz Hk.
    assert (SH : forall j, 0 <= j <= Z.of_nat n - 1 -> x <> 0 -> Z.shiftr x (s * j) <> 0).
    { intros j Hj Nx E. pose proof (proj1 (is_long_s x) Hx) as Hx'.
      assert (N : uwrap 64 x <> 0) by (rewrite uwrap_0_iff; auto; lia).
      destruct (highest_at_ex 64 x ltac:(lia) N) as (k & Hh & _). specialize (Hk k Hh).
      destruct Hh as (A & B & _).
      assert (T : Z.testbit (Z.shiftr x (s * j)) (k - s * j) = true).
      { rewrite Z.shiftr_spec by nia. replace (k - s * j + s * j) with k by lia. auto. }
      rewrite E, Z.bits_0 in T. discriminate. }
    eexists. split; [apply format_loop_ok; [lia|rewrite repeat_length; lia|lia|]|].
    { intros j Hj. apply SH; [lia|]. intros ->. specialize (Hz eq_refl). lia. }
    rewrite skipn_all2 by (rewrite repeat_length; lia). rewrite app_nil_r.
    split; [unfold zlen; rewrite map_length, digs_length; auto|].
    pose proof (digs_range s n ltac:(lia) x) as R.
    assert (NE : digs s x n <> []). { intros E. apply (f_equal (@length Z)) in E. rewrite digs_length in E. cbn in E; lia. }
    repeat split.
    - destruct (digs s x n); [congruence|discriminate].
    - destruct (numeral_digits (2 ^ s) (digs s x n) ltac:(lia) R NE) as [_ (ds & D1 & D2)].
      exists ds. split; auto. rewrite <- D2. symmetry. apply digs_value; lia.
    - apply Forall_map. eapply Forall_impl; [|exact R]. intros d Hd. cbv beta in Hd. apply digit_char_not_upper; lia.
    - intros H48. destruct n as [|n]; [lia|].
      assert (H0 : hd 0 (digs s x (S n)) = 0).
      { destruct (digs s x (S n)) as [|d t]; [congruence|]. cbn [map hd] in H48 |- *. inversion R; subst.
        apply digit_char_0 in H48; lia. }
      rewrite digs_hd in H0 by lia.
      destruct (Z.eq_dec x 0) as [->|Nx].
      { assert (n = 0)%nat by (specialize (Hz eq_refl); lia). subst. reflexivity. }
      exfalso. specialize (SH (Z.of_nat n) ltac:(lia) Nx).
      pose proof (proj1 (is_long_s x) Hx) as Hx'.
      assert (N : uwrap 64 x <> 0) by (rewrite uwrap_0_iff; auto; lia).
      destruct (highest_at_ex 64 x ltac:(lia) N) as (k & Hh & _). specialize (Hk k Hh).
      destruct Hh as (A & B & _).
      assert (T : Z.testbit (Z.shiftr x (s * Z.of_nat n) mod 2 ^ s) (k - s * Z.of_nat n) = true).
      { rewrite Z.mod_pow2_bits_low by lia. rewrite Z.shiftr_spec by nia. replace (k - s * Z.of_nat n + s * Z.of_nat n) with k by lia. auto. }
      rewrite H0, Z.bits_0 in T. discriminate. }
  destruct Nz as [[-> ->]|(k & Hk & ->)].
  - destruct (K 1%nat ltac:(lia) ltac:(auto)) as (t & E1 & E2 & E3).
    { intros k (_ & B & _). rewrite Z.bits_0 in B. discriminate. }
    exists t, 1. replace (Z.max ((64 - 64 + (s - 1)) / s) 1) with 1.
    + split; [exact E1|]. split; [left; auto|]. split; auto.
    + replace ((64 - 64 + (s - 1)) / s) with 0; [reflexivity|]. symmetry. apply Z.div_small. lia.
  - set (n := Z.max ((64 - (64 - 1 - k) + (s - 1)) / s) 1).
    assert (En : s * (n - 1) <= k < s * n /\ 1 <= n).
    { unfold n. destruct Hk as (Hk & _).
      replace (64 - (64 - 1 - k) + (s - 1)) with (k + 1 * s) by lia. rewrite Z.div_add by lia.
      pose proof (Z.div_pos k s ltac:(lia) ltac:(lia)). rewrite Z.max_l by lia.
      pose proof (Z.div_mod k s ltac:(lia)). pose proof (Z.mod_pos_bound k s ltac:(lia)). nia. }
    destruct (K (Z.to_nat n)) as (t & E1 & E2 & E3).
    + lia.
    + intros ->. destruct Hk as (_ & B & _). rewrite Z.bits_0 in B. discriminate.
    + intros k' Hk'. rewrite (highest_at_fun _ _ _ _ Hk' Hk). rewrite Z2Nat.id by lia. tauto.
    + rewrite Z2Nat.id in * by lia. exists t, n. split; [exact E1|]. split; [right; exists k; tauto|]. split; auto.
Qed.

Lemma format_nonneg m x s : is_long x -> 0 < s <= 5 -> 0 <= x ->
  exists t, toUnsignedString0 m x s = Ok t /\ canonical_unsigned (2 ^ s) t x.
Proof.
  intros Hx Hs Hp. destruct (format_ok m x s Hx Hs) as (t & n & E & O & _ & C). exists t. split; auto.
  rewrite Z.mod_small in C; auto. clear C. split; auto.
  destruct O as [[-> ->]|(k & Hk & Hn)]; [apply pow2_pos; lia|].
  rewrite highest_at_uwrap in Hk by lia.
  assert (U : uwrap 64 x = x) by (apply uwrap_id; unfold is_long, long_max in Hx; lia). rewrite U in Hk.
  apply highest_at_bounds in Hk; [|unfold is_long, long_max in Hx; lia].
  destruct Hk as (K0 & _ & K). eapply Z.lt_le_trans; [exact K|]. apply Z.pow_le_mono_r; lia.
Qed.
Lemma format_neg m x s : is_long x -> 0 < s <= 5 -> x < 0 ->
  exists t, toUnsignedString0 m x s = Ok t /\ canonical_unsigned (2 ^ s) t (x mod 2 ^ (s * ((63 + s) / s))).
Proof.
  intros Hx Hs Hp. destruct (format_ok m x s Hx Hs) as (t & n & E & O & _ & C). exists t. split; auto.
  destruct O as [[-> _]|(k & Hk & Hn)]; [lia|].
  assert (K : k = 63).
  { destruct Hk as (A & B & D). destruct (Z.eq_dec k 63); auto. specialize (D 63 ltac:(lia)).
    rewrite (signed_bits_high 64) in D; [lia|lia|apply (proj1 (is_long_s _)); auto|lia]. }
  subst k. replace ((63 + s) / s) with n; auto.
  apply Z.div_unique with (63 + s - s * n); lia.
Qed.

Lemma format_unsigned m x s : is_long x -> s = 1 \/ s = 4 ->
  exists t, toUnsignedString0 m x s = Ok t /\ canonical_unsigned (2 ^ s) t (unsigned 64 x).
Proof.
  intros Hx Hs. unfold unsigned. destruct (Z.lt_ge_cases x 0) as [N|N].
  - destruct (format_neg m x s Hx ltac:(lia) N) as (t & E & C). exists t. split; auto.
    destruct Hs as [-> | ->]; exact C.
  - rewrite Z.mod_small by (unfold is_long, long_max in Hx; lia). apply format_nonneg; auto; lia.
Qed.

(** ** toString *)

Lemma toString_calls_ok l st : toString_calls st l =
  map (fun i => itoa (match st with Some j => j | None => hd i l end)) l.
Proof.
  assert (S : forall l j, toString_calls (Some j) l = map (fun _ => itoa j) l).
  { induction l0 as [|i l0 IH]; intros j; cbn; auto. rewrite IH. auto. }
  destruct st as [j|]; [apply S|]. destruct l as [|i l]; [reflexivity|].
  cbn [toString_calls toString_static map hd]. rewrite S. reflexivity.
Qed.
(** The argument of the last plain assignment in a history. *)
Fixpoint last_assigned (v : Z) (l : list lstep) : Z :=
  match l with
  | [] => v
  | LAssign w :: t => last_assigned w t
  | LCompound _ _ :: t => last_assigned v t
  end.
Lemma text_stale m l : forall x y v, long_steps m x l = Ok y -> ltext x = itoa v -> ltext y = itoa (last_assigned v l).
Proof.
  induction l as [|s l IH]; intros x y v E Ht; [inversion E; subst; auto|].
  cbn [long_steps] in E. destruct s as [w|o w]; cbn [long_step bind last_assigned] in *.
  - eapply IH; eauto.
  - destruct (long_op m o (lval x) w) as [r| | |]; cbn [bind] in E; try discriminate. eapply IH; eauto.
Qed.

(** ** Deciding legality, uniqueness of values *)

Lemma numeral_dec r t : r = 10 \/ r = 16 -> Forall byte_ok t ->
  (exists w, numeral r t w /\ lower t) \/ ~ (exists w, numeral r t w /\ lower t).
Proof.
  intros Hr B. destruct t as [|c t]; [right; intros (w & [H _] & _); congruence|].
  destruct (Forall_dec (fun c => 0 <= digit (schar c) r) (fun c => Z_le_dec 0 (digit (schar c) r)) (c :: t)) as [F|F].
  - left. eexists. apply digits_numeral; eauto. discriminate.
  - right. intros (w & N & Lo). apply F. apply (numeral_digits_nn r (c :: t) w); auto.
Qed.
Lemma legal_dec r s : r = 10 \/ r = 16 -> Forall byte_ok s ->
  (exists v, legal_numeral r s v /\ lower s) \/ ~ (exists v, legal_numeral r s v /\ lower s).
Proof.
  intros Hr B. destruct (numeral_dec r s Hr B) as [(w & N & Lo)|N0].
  { left. exists w. split; auto. left; auto. }
  destruct s as [|c t].
  { right. intros (v & [H|[(t & H & _)|(t & w & H & _)]] & Lo); try congruence. apply N0; eauto. }
  inversion B as [|? ? Bc Bt]; subst. destruct (numeral_dec r t Hr Bt) as [(w & N & Lo)|N1].
  - destruct (Z.eq_dec c 45) as [->|N45]; [|destruct (Z.eq_dec c 43) as [->|N43]].
    + left. exists (- w). split; [right; right; eauto|]. constructor; auto.
    + left. exists w. split; [right; left; eauto|]. constructor; auto.
    + right. intros (v & [H|[(t' & H & _)|(t' & w' & H & _)]] & Lo'); try congruence. apply N0; eauto.
  - right. intros (v & [H|[(t' & H & N)|(t' & w' & H & N & _)]] & Lo'); [apply N0; eauto|..];
      inversion H; subst; inversion Lo'; subst; apply N1; eauto.
Qed.
Lemma canonical_signed_fun b s v w : 0 < b -> canonical_signed b s v -> canonical_signed b s w -> v = w.
Proof.
  intros Hb H H'.
  assert (M : forall t x, ~ numeral b (45 :: t) x).
  { intros t x N. apply numeral_hd48 in N. lia. }
  destruct H as [[N _]|(t & u & -> & _ & [N _] & ->)], H' as [[N' _]|(t' & u' & E & _ & [N' _] & ->)].
  - eapply numeral_fun; eauto.
  - subst. destruct (M _ _ N).
  - destruct (M _ _ N').
  - inversion E; subst. f_equal. eapply numeral_fun; eauto.
Qed.
