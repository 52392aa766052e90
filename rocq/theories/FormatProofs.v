(** Lemmas for FormatProps.v. *)

From Coq Require Import ZArith List Lia Bool String.
From Verif Require Import Base Bits CppText TextSpec TextLemmas FormatModel FormatSpec.
Import ListNotations.
Open Scope string_scope.
Open Scope list_scope.
Open Scope Z_scope.

#[local] Arguments flag_c : simpl never.
#[local] Arguments conv_c : simpl never.
#[local] Arguments digit_c : simpl never.

Lemma digit_c_true : forall c, digit_c c = true <-> 48 <= c <= 57.
Proof. intros; unfold digit_c; rewrite andb_true_iff, !Z.leb_le; tauto. Qed.
Lemma existsb_In : forall c l, existsb (Z.eqb c) l = true <-> In c l.
Proof.
  intros; rewrite existsb_exists; split.
  - intros (x & I & E); apply Z.eqb_eq in E; subst; auto.
  - intros H; exists c; split; auto; apply Z.eqb_refl.
Qed.
Lemma flag_c_true : forall c, flag_c c = true <-> in_text "-#+0 " c.
Proof. intros; unfold flag_c, in_text; apply existsb_In. Qed.
Lemma conv_c_true : forall c, conv_c c = true <-> in_text "diuoxXfFeEgGaAcspnbB%" c.
Proof. intros; unfold conv_c, in_text; apply existsb_In. Qed.

Lemma skip_while_app : forall p a b, Forall (fun c => p c = true) a -> skip_while p (a ++ b) = skip_while p b.
Proof. induction 1; cbn; auto. rewrite H; auto. Qed.
Lemma skip_while_split : forall p s, exists a, s = a ++ skip_while p s /\ Forall (fun c => p c = true) a.
Proof.
  induction s as [|c s (a & E & F)]; cbn.
  - exists []; auto.
  - destruct (p c) eqn:P.
    + exists (c :: a); split; [cbn; congruence|constructor; auto].
    + exists []; auto.
Qed.
(** [t] begins with neither a digit nor a flag *)
Definition starts_plain (t : str) : Prop :=
  match t with c :: _ => digit_c c = false /\ flag_c c = false | [] => True end.
Lemma skip_digit_plain : forall t, starts_plain t -> skip_while digit_c t = t.
Proof. destruct t; cbn; auto. intros [-> _]; auto. Qed.
Lemma skip_flag_plain : forall t, starts_plain t -> skip_while flag_c t = t.
Proof. destruct t; cbn; auto. intros [_ ->]; auto. Qed.
Lemma digits_p : forall s, digits s <-> Forall (fun c => digit_c c = true) s.
Proof. intros; unfold digits; split; apply Forall_impl; intros; apply digit_c_true; auto. Qed.
Lemma skip_flag_digits : forall n t, digits n -> starts_plain t ->
  exists n', digits n' /\ skip_while flag_c (n ++ t) = n' ++ t.
Proof.
  induction 1; intros P; cbn.
  - exists []; split; [constructor|]. apply skip_flag_plain; auto.
  - destruct (flag_c x); auto. exists (x :: l); split; [constructor; auto|auto].
Qed.
Lemma skip_head : forall n1 fl n2 t, digits n1 -> Forall (in_text "-#+0 ") fl -> digits n2 -> starts_plain t ->
  skip_while digit_c (skip_while flag_c (skip_while digit_c (n1 ++ fl ++ n2 ++ t))) = t.
Proof.
  intros n1 fl n2 t D1 F D2 P. rewrite skip_while_app by (apply digits_p; auto).
  induction F as [|c fl Hc F IH].
  - cbn [app]. rewrite (skip_while_app _ n2) by (apply digits_p; auto).
    rewrite (skip_digit_plain t P), (skip_flag_plain t P), (skip_digit_plain t P); auto.
  - cbn [app skip_while]. destruct (digit_c c) eqn:Dc; auto.
    cbn [skip_while]. rewrite (proj2 (flag_c_true c) Hc).
    rewrite (skip_while_app flag_c fl).
    2:{ revert F; apply Forall_impl; intros a; apply flag_c_true. }
    destruct (skip_flag_digits n2 t D2 P) as (n' & D' & ->).
    rewrite skip_while_app by (apply digits_p; auto). apply skip_digit_plain; auto.
Qed.

Lemma conv_cases : forall c, in_text "diuoxXfFeEgGaAcspnbB%" c ->
  digit_c c = false /\ flag_c c = false /\ c <> 46 /\ c <> 108 /\ c <> 0.
Proof.
  intros c H; unfold in_text in H; cbn in H.
  repeat (destruct H as [<-|H]; [repeat split; try reflexivity; lia|]); contradiction.
Qed.

Lemma skip_l_conv : forall c r, c <> 108 -> skip_l (c :: r) = c :: r.
Proof.
  intros c r N. unfold skip_l.
  repeat match goal with |- context [match ?x with _ => _ end] => destruct x; try reflexivity end; lia.
Qed.
Lemma skip_precision_other : forall c r, c <> 46 -> skip_precision (c :: r) = c :: r.
Proof.
  intros c r N. unfold skip_precision.
  repeat match goal with |- context [match ?x with _ => _ end] => destruct x; try reflexivity end; lia.
Qed.
Lemma T_char : T "." = [46] /\ T "l" = [108] /\ T "ll" = [108; 108] /\ T "%" = [37] /\ T "" = [].
Proof. repeat split. Qed.

Lemma skip_tail : forall prec ls c r,
  prec = [] \/ (exists n3, prec = T "." ++ n3 /\ digits n3 /\ n3 <> []) ->
  ls = T "" \/ ls = T "l" \/ ls = T "ll" ->
  in_text "diuoxXfFeEgGaAcspnbB%" c ->
  skip_l (skip_l (skip_precision (prec ++ ls ++ c :: r))) = c :: r /\ starts_plain (prec ++ ls ++ c :: r).
Proof.
  intros prec ls c r HP HL HC. destruct (conv_cases c HC) as (D & F & N46 & N108 & _).
  assert (A : skip_l (skip_l (ls ++ c :: r)) = c :: r /\ starts_plain (ls ++ c :: r) /\
              skip_precision (ls ++ c :: r) = ls ++ c :: r /\ skip_while digit_c (ls ++ c :: r) = ls ++ c :: r).
  { destruct HL as [-> | [-> | ->]]; change (T "ll") with [108; 108] in *; change (T "l") with [108] in *; change (T "") with (@nil Z) in *; cbn [app].
    - rewrite !skip_l_conv by auto. rewrite skip_precision_other by auto.
      cbn [skip_while starts_plain]. rewrite D; auto.
    - change (skip_l (108 :: c :: r)) with (c :: r). rewrite !skip_l_conv by auto. repeat split; reflexivity.
    - change (skip_l (skip_l (108 :: 108 :: c :: r))) with (c :: r). repeat split; reflexivity. }
  destruct A as (A1 & A2 & A3 & A4).
  destruct HP as [-> | (n3 & -> & D3 & NE)].
  - cbn [app]. rewrite A3; auto.
  - split; [|split; reflexivity]. destruct n3 as [|x n3]; [congruence|].
    inversion D3; subst. change (T ".") with [46]; cbn [app].
    unfold skip_precision. rewrite (proj2 (digit_c_true x)) by auto.
    rewrite skip_while_app by (apply digits_p; auto). rewrite A4; auto.
Qed.

Lemma match_complete : forall d r, directive d -> match_here (d ++ r) = Some r.
Proof.
  intros d r H; inversion H as [n1 fl n2 prec ls c H1 H2 H3 H4 H5 H6]; subst.
  destruct (skip_tail prec ls c r H4 H5 H6) as (Q & P).
  replace ((T "%" ++ n1 ++ fl ++ n2 ++ prec ++ ls ++ [c]) ++ r)
     with (37 :: n1 ++ fl ++ n2 ++ (prec ++ ls ++ c :: r)) by (cbn; rewrite <- !app_assoc; reflexivity).
  unfold match_here. rewrite skip_head by auto. rewrite Q, (proj2 (conv_c_true c) H6). reflexivity.
Qed.

Lemma skip_precision_split : forall s, exists p, s = p ++ skip_precision s /\
  (p = [] \/ (exists n3, p = T "." ++ n3 /\ digits n3 /\ n3 <> [])).
Proof.
  intros s. destruct s as [|x [|y t]].
  1: exists []; auto.
  1: exists []; destruct (Z.eq_dec x 46); [subst|rewrite skip_precision_other by auto]; auto.
  destruct (Z.eq_dec x 46) as [->|N].
  2:{ exists []; rewrite skip_precision_other by auto; auto. }
  unfold skip_precision. destruct (digit_c y) eqn:D.
  2: exists []; auto.
  destruct (skip_while_split digit_c t) as (a & E & F).
  exists (46 :: y :: a). split.
  - cbn. rewrite <- E; auto.
  - right; exists (y :: a); repeat split; auto; [|congruence].
    constructor; [apply digit_c_true; auto|apply digits_p; auto].
Qed.
Lemma skip_l_split : forall s, exists l, s = l ++ skip_l s /\ (l = [] \/ l = [108]).
Proof.
  destruct s as [|x t]; [exists []; auto|].
  destruct (Z.eq_dec x 108) as [->|N]; [exists [108]; auto|].
  exists []; rewrite skip_l_conv by auto; auto.
Qed.

Lemma match_sound : forall s r, match_here s = Some r -> exists d, directive d /\ s = d ++ r.
Proof.
  intros s r H. destruct s as [|x t]; [discriminate|].
  destruct (Z.eq_dec x 37) as [->|N].
  2:{ exfalso. revert H. unfold match_here.
      repeat match goal with |- context [match ?x with _ => _ end] => destruct x; try discriminate end; lia. }
  unfold match_here in H.
  destruct (skip_while_split digit_c t) as (n1 & E1 & F1). set (t1 := skip_while digit_c t) in *.
  destruct (skip_while_split flag_c t1) as (fl & E2 & F2). set (t2 := skip_while flag_c t1) in *.
  destruct (skip_while_split digit_c t2) as (n2 & E3 & F3). set (t3 := skip_while digit_c t2) in *.
  destruct (skip_precision_split t3) as (p & E4 & F4). set (t4 := skip_precision t3) in *.
  destruct (skip_l_split t4) as (l1 & E5 & F5). set (t5 := skip_l t4) in *.
  destruct (skip_l_split t5) as (l2 & E6 & F6). set (t6 := skip_l t5) in *.
  destruct t6 as [|c r'] eqn:E7; [discriminate|].
  destruct (conv_c c) eqn:C; [|discriminate]. injection H as ->.
  exists (T "%" ++ n1 ++ fl ++ n2 ++ p ++ (l1 ++ l2) ++ [c]). split.
  - constructor; auto; try (apply digits_p; auto).
    + revert F2; apply Forall_impl; intros a; apply flag_c_true.
    + destruct F5 as [-> | ->], F6 as [-> | ->]; cbn; auto.
    + apply conv_c_true; auto.
  - rewrite E1, E2, E3, E4, E5, E6. cbn. rewrite <- !app_assoc. reflexivity.
Qed.

Lemma directive_unique : forall d1 d2 r1 r2, directive d1 -> directive d2 -> d1 ++ r1 = d2 ++ r2 -> d1 = d2 /\ r1 = r2.
Proof.
  intros d1 d2 r1 r2 H1 H2 E.
  pose proof (match_complete d1 r1 H1) as A. pose proof (match_complete d2 r2 H2) as B.
  rewrite E, B in A. injection A as ->. split; auto. apply app_inv_tail in E; auto.
Qed.
Lemma directive_nonempty : forall d, directive d -> d <> [].
Proof. intros d H; inversion H; cbn; congruence. Qed.

Lemma regexec_unfold : forall s, regexec s =
  match match_here s with
  | Some r => Some (0, zlen s - zlen r)
  | None => match s with
            | [] => None
            | _ :: t => match regexec t with Some (so, eo) => Some (so + 1, eo + 1) | None => None end
            end
  end.
Proof. destruct s; reflexivity. Qed.

(** The leftmost directive. *)
Lemma regexec_spec : forall s,
  match regexec s with
  | None => none_before s []
  | Some (so, eo) => exists a d r, s = a ++ d ++ r /\ zlen a = so /\ zlen (a ++ d) = eo /\
                                   directive d /\ none_before a (d ++ r)
  end.
Proof.
  induction s as [|x t IH]; rewrite regexec_unfold.
  - cbn. intros a1 a2 d r E NE D. destruct a1, a2; try discriminate; congruence.
  - destruct (match_here (x :: t)) as [r|] eqn:M.
    + destruct (match_sound _ _ M) as (d & D & E).
      exists [], d, r. rewrite E. unfold zlen; cbn [app List.length]. rewrite app_length.
      repeat split; auto; try lia.
      intros a1 a2 d' r' E' NE; destruct a1, a2; try discriminate; congruence.
    + assert (NH : forall d r, directive d -> x :: t <> d ++ r).
      { intros d r D E. rewrite E, match_complete in M by auto. discriminate. }
      destruct (regexec t) as [[so eo]|].
      * destruct IH as (a & d & r & E & Ea & Ed & D & NB).
        exists (x :: a), d, r. unfold zlen in *; cbn [app List.length].
        repeat split; auto; try lia; [rewrite E; auto|].
        intros a1 a2 d' r' E' NE D'. destruct a1 as [|y a1]; cbn in E'.
        -- subst a2. cbn. rewrite <- E. apply NH; auto.
        -- injection E' as -> E'. apply NB with (a1 := a1); auto.
      * intros a1 a2 d' r' E' NE D'. destruct a1 as [|y a1]; cbn in E'.
        -- subst a2. rewrite app_nil_r. apply NH; auto.
        -- injection E' as -> E'. apply IH with (a1 := a1); auto.
Qed.

Lemma app_eq_split : forall (a b c d : str), a ++ b = c ++ d ->
  (exists x, c = a ++ x /\ b = x ++ d) \/ (exists x, x <> [] /\ a = c ++ x /\ d = x ++ b).
Proof.
  induction a as [|x a IH]; intros b c d E.
  - left; exists c; auto.
  - destruct c as [|y c].
    + right; exists (x :: a); cbn in *; repeat split; auto; congruence.
    + cbn in E; injection E as -> E. destruct (IH _ _ _ E) as [(z & -> & ->)|(z & N & -> & ->)];
        [left|right]; exists z; auto.
Qed.

Lemma first_unique : forall a d r a' d' r', a ++ d ++ r = a' ++ d' ++ r' ->
  directive d -> directive d' -> none_before a (d ++ r) -> none_before a' (d' ++ r') ->
  a = a' /\ d = d' /\ r = r'.
Proof.
  intros a d r a' d' r' E D D' N N'.
  destruct (app_eq_split _ _ _ _ E) as [(x & -> & E2)|(x & NE & -> & E2)].
  - destruct x as [|y x].
    + rewrite app_nil_r. destruct (directive_unique d d' r r' D D' E2); auto.
    + exfalso. apply (N' a (y :: x) d r); auto. congruence.
  - exfalso. apply (N a' x d' r'); auto.
Qed.

Lemma regexec_dir : forall a d r, directive d -> none_before a (d ++ r) ->
  regexec (a ++ d ++ r) = Some (zlen a, zlen (a ++ d)).
Proof.
  intros a d r D N. pose proof (regexec_spec (a ++ d ++ r)) as H.
  destruct (regexec (a ++ d ++ r)) as [[so eo]|].
  - destruct H as (a' & d' & r' & E & <- & <- & D' & N').
    destruct (first_unique _ _ _ _ _ _ E D D' N N') as (-> & -> & ->); auto.
  - exfalso. apply (H a (d ++ r) d r); auto.
    + intros E. apply app_eq_nil in E as [E _]. exact (directive_nonempty d D E).
    + rewrite app_nil_r; auto.
Qed.
Lemma regexec_none : forall s, none_before s [] -> regexec s = None.
Proof.
  intros s N. pose proof (regexec_spec s) as H. destruct (regexec s) as [[so eo]|]; auto.
  exfalso. destruct H as (a & d & r & -> & _ & _ & D & _).
  apply (N a (d ++ r) d r); auto.
  - intros E. apply app_eq_nil in E as [E _]. exact (directive_nonempty d D E).
  - rewrite app_nil_r; auto.
Qed.

(** ** Existence and uniqueness of the reading of a format string *)

Lemma reads_exists : forall s, exists l, reads s l.
Proof.
  intros s. remember (List.length s) as n eqn:En. revert s En.
  induction n as [n IH] using lt_wf_ind; intros s ->.
  pose proof (regexec_spec s) as H. destruct (regexec s) as [[so eo]|].
  - destruct H as (a & d & r & -> & _ & _ & D & N).
    destruct (IH (List.length r)) with (s := r) as (l & R); auto.
    { rewrite !app_length. pose proof (directive_nonempty d D). destruct d; [congruence|cbn; lia]. }
    exists (Lit a :: Dir d :: l). constructor; auto.
  - exists [Lit s]. constructor; auto.
Qed.
Lemma none_end_dir : forall a d r, none_before (a ++ d ++ r) [] -> directive d -> False.
Proof.
  intros a d r N D. apply (N a (d ++ r) d r); auto.
  - intros E. apply app_eq_nil in E as [E _]. exact (directive_nonempty d D E).
  - rewrite app_nil_r; auto.
Qed.
Lemma reads_unique : forall s l, reads s l -> forall l', reads s l' -> l = l'.
Proof.
  induction 1 as [s N|a d s l N D R IH]; intros l' R'.
  - inversion R' as [s' N'|a d s' l0 N' D' R0]; subst; auto. exfalso; eapply none_end_dir; eauto.
  - inversion R' as [s' N' E|a' d' s' l0 N' D' R0 E]; subst.
    + exfalso; eapply none_end_dir; eauto.
    + destruct (first_unique _ _ _ _ _ _ E D' D N' N) as (-> & -> & ->). f_equal. f_equal. auto.
Qed.

(** ** The loop *)

Lemma cstr_nonul : forall s, ~ In 0 s -> cstr s = s.
Proof.
  induction s as [|c s IH]; cbn; auto. intros H.
  destruct (Z.eqb_spec c 0); [exfalso; apply H; auto|]. rewrite IH; auto.
Qed.
Lemma directive_nonul : forall d, directive d -> ~ In 0 d.
Proof.
  intros d H I; inversion H as [n1 fl n2 prec ls c H1 H2 H3 H4 H5 H6]; subst.
  assert (DG : forall n, digits n -> ~ In 0 n).
  { intros n Dn J. unfold digits in Dn. rewrite Forall_forall in Dn. specialize (Dn _ J). cbn in Dn. lia. }
  rewrite !in_app_iff in I. cbn in I.
  destruct I as [[E|[]]|[I|[I|[I|[I|[I|[E|[]]]]]]]]; try lia.
  - exact (DG _ H1 I).
  - rewrite Forall_forall in H2. specialize (H2 _ I). unfold in_text in H2; cbn in H2. lia.
  - exact (DG _ H3 I).
  - destruct H4 as [-> | (n3 & -> & D3 & _)]; [contradiction|].
    rewrite in_app_iff in I. destruct I as [[E|[]]|I]; [cbn in E; lia|exact (DG _ D3 I)].
  - destruct H5 as [-> | [-> | ->]]; cbn in I; lia.
  - destruct (conv_cases _ H6) as (_ & _ & _ & _ & N). congruence.
Qed.

Section Loop.
Context (c_text : str -> arg -> option str).

(** The loop, item by item. *)
Fixpoint fill (l : list item) (args : list arg) : outcome str :=
  match l with
  | [] => Ok []
  | Lit s :: l => let* r := fill l args in Ok (s ++ r)
  | Dir d :: l =>
      if is_percent d then let* r := fill l args in Ok ([37] ++ r)
      else match args with
           | [] => Throw InterruptedException
           | a :: args' => let* p := print c_text d a in let* r := fill l args' in Ok (p ++ r)
           end
  end.

Lemma firstn_zlen : forall (a b : str), firstn (Z.to_nat (zlen a)) (a ++ b) = a.
Proof. intros; unfold zlen; rewrite Nat2Z.id, firstn_app, Nat.sub_diag, firstn_O, app_nil_r, firstn_all; auto. Qed.
Lemma skipn_zlen : forall (a b : str), skipn (Z.to_nat (zlen a)) (a ++ b) = b.
Proof. intros; unfold zlen; rewrite Nat2Z.id, skipn_app, Nat.sub_diag, skipn_O, skipn_all; auto. Qed.

Lemma cstr_app : forall a b, ~ In 0 a -> cstr (a ++ b) = a ++ cstr b.
Proof.
  induction a as [|c a IH]; cbn; auto; intros b H.
  destruct (Z.eqb_spec c 0); [exfalso; apply H; auto|]. rewrite IH; auto.
Qed.

(** One round, also with NUL further on: only the C string counts. *)
Lemma loop_dir : forall f a d r args, ~ In 0 a -> directive d -> none_before a (d ++ cstr r) ->
  format_loop c_text (Datatypes.S f) (a ++ d ++ r) args =
  if is_percent d
  then let* q := format_loop c_text f r args in Ok (a ++ [37] ++ q)
  else match args with
       | [] => Throw InterruptedException
       | x :: args' => let* p := print c_text d x in
                       let* q := format_loop c_text f r args' in Ok (a ++ p ++ q)
       end.
Proof.
  intros f a d r args NA D N. cbn [format_loop].
  assert (NE : a ++ d ++ r <> []).
  { intros E. apply app_eq_nil in E as [_ E]. apply app_eq_nil in E as [E _]. exact (directive_nonempty d D E). }
  destruct (a ++ d ++ r) as [|x0 s0] eqn:ES; [congruence|].
  rewrite <- ES.
  replace (cstr (a ++ d ++ r)) with (a ++ d ++ cstr r)
    by (rewrite !cstr_app; auto; apply directive_nonul; auto).
  rewrite regexec_dir by auto.
  replace (zlen (a ++ d) - zlen a) with (zlen d) by (rewrite zlen_app; lia).
  rewrite firstn_zlen, skipn_zlen, firstn_zlen.
  replace (skipn (Z.to_nat (zlen (a ++ d))) (a ++ d ++ r)) with r by (rewrite app_assoc, skipn_zlen; auto).
  unfold is_percent, printObject. change (T "%") with [37].
  destruct args as [|y args']; destruct (last d 0 =? 37); cbn [bind]; auto.
Qed.
Lemma loop_end : forall f s args, none_before (cstr s) [] -> format_loop c_text (Datatypes.S f) s args = Ok s.
Proof.
  intros f s args N. cbn [format_loop]. destruct s as [|x s0]; auto.
  rewrite regexec_none by auto. auto.
Qed.

Lemma not_in_app : forall (x : Z) a b, ~ In x (a ++ b) -> ~ In x a /\ ~ In x b.
Proof. intros x a b H; split; intros I; apply H; apply in_or_app; auto. Qed.

Lemma loop_reads : forall s l, reads s l -> ~ In 0 s -> forall f args, (List.length s < f)%nat ->
  format_loop c_text f s args = fill l args.
Proof.
  induction 1 as [s N|a d s l N D R IH]; intros NZ f args Hf.
  - destruct f; [lia|]. rewrite loop_end by (rewrite cstr_nonul; auto). cbn. rewrite app_nil_r; auto.
  - destruct f; [lia|]. apply not_in_app in NZ as [NA NZ]. apply not_in_app in NZ as [ND NS].
    rewrite loop_dir; auto; [|rewrite cstr_nonul; auto].
    assert (Hf' : (List.length s < f)%nat).
    { rewrite !app_length in Hf. pose proof (directive_nonempty d D). destruct d; [congruence|cbn in Hf; lia]. }
    cbn [fill]. destruct (is_percent d).
    + rewrite IH by auto. destruct (fill l args); auto.
    + destruct args as [|y args']; auto. destruct (print c_text d y); cbn [bind]; auto.
      rewrite IH by auto. destruct (fill l args'); auto.
Qed.
Lemma format_reads : forall s l args, reads s l -> ~ In 0 s -> format c_text s args = fill l args.
Proof. intros; unfold format; apply loop_reads; auto. Qed.

(** ** Buffers *)

Lemma snprintf_short : forall size out, 0 < size -> zlen out < size -> zlen out <= int_max ->
  exists pad, snprintf size out = (out ++ pad, zlen out).
Proof.
  intros size out P L M. unfold snprintf. rewrite firstn_all2 by (unfold zlen in *; lia).
  destruct (Z.leb_spec (zlen out) int_max); [|lia]. eexists; reflexivity.
Qed.
Lemma copy_exact : forall out pad, copy_buffer (out ++ pad) (zlen out) = Ok out.
Proof.
  intros; unfold copy_buffer. rewrite firstn_zlen.
  destruct (Z.leb_spec (zlen out) (zlen (out ++ pad))); auto. rewrite zlen_app in *. pose proof (zlen_nonneg pad); lia.
Qed.
Lemma zlen_0_nil : forall (s : str), zlen s <= 0 -> s = [].
Proof. destruct s; auto; unfold zlen; cbn; lia. Qed.
Lemma int_max_val : int_max = 2147483647.
Proof. reflexivity. Qed.

Lemma number_short : forall d a out, c_text (cstr d) a = Some out -> zlen out < 128 -> print_number c_text d a = Ok out.
Proof.
  intros d a out E L. unfold print_number. rewrite E. unfold buffer_length.
  destruct (snprintf_short 128 out) as (pad & ->); try lia; [rewrite int_max_val; lia|].
  destruct (Z.ltb_spec 0 (zlen out)); [apply copy_exact|]. rewrite (zlen_0_nil out) by lia; auto.
Qed.
Lemma string_fits : forall d s out, c_text (cstr d) (AStr (cstr s)) = Some out -> zlen out <> 128 ->
  zlen out < int_max -> print_string c_text d s = Ok out.
Proof.
  intros d s out E N L. unfold print_string. rewrite E. unfold buffer_length.
  assert (NN := zlen_nonneg out).
  destruct (Z_lt_le_dec (zlen out) 128).
  - destruct (snprintf_short 128 out) as (pad & ->); try lia.
    destruct (Z.ltb_spec 128 (zlen out)); [lia|].
    destruct (Z.ltb_spec 0 (zlen out)); [apply copy_exact|]. rewrite (zlen_0_nil out) by lia; auto.
  - unfold snprintf at 1. destruct (Z.leb_spec (zlen out) int_max); [|lia].
    destruct (Z.ltb_spec 128 (zlen out)); [|lia].
    destruct (Z.eqb_spec (zlen out) int_max); [lia|].
    destruct (snprintf_short (zlen out + 1) out) as (pad & ->); try lia. apply copy_exact.
Qed.
Lemma number_long : forall d a out, c_text (cstr d) a = Some out -> 128 < zlen out <= int_max ->
  print_number c_text d a = UB OutOfBounds.
Proof.
  intros d a out E L. unfold print_number. rewrite E. unfold buffer_length, snprintf.
  destruct (Z.leb_spec (zlen out) int_max); [|lia].
  destruct (Z.ltb_spec 0 (zlen out)); [|lia]. unfold copy_buffer.
  match goal with |- context [zlen out <=? ?b] => replace b with 128 end.
  2:{ unfold zlen in *. rewrite app_length, repeat_length, firstn_length.
      change (Z.to_nat (128 - 1)) with 127%nat. lia. }
  destruct (Z.leb_spec (zlen out) 128); auto; lia.
Qed.
Lemma buffer_128 : forall out, zlen out = 128 ->
  let '(buf, length) := snprintf 128 out in
  length = 128 /\ copy_buffer buf 128 = Ok (firstn 127 out ++ [0]).
Proof.
  intros out L. unfold snprintf. change (Z.to_nat (128 - 1)) with 127%nat.
  assert (LN : List.length out = 128%nat) by (unfold zlen in L; lia).
  assert (F : List.length (firstn 127 out) = 127%nat) by (rewrite firstn_length, LN; reflexivity).
  assert (FZ : zlen (firstn 127 out) = 127) by (unfold zlen; lia).
  rewrite FZ. change (Z.to_nat (128 - 127)) with 1%nat. cbn [repeat].
  rewrite L. change (128 <=? int_max) with true. cbv iota. split; auto.
  unfold copy_buffer. unfold zlen. rewrite app_length, F. change (128 <=? Z.of_nat (127 + List.length [0])) with true.
  cbv iota. rewrite firstn_all2; auto. rewrite app_length, F. cbn. lia.
Qed.
End Loop.
