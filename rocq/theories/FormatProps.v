(** C94: String.format. *)

From Coq Require Import ZArith List Lia Bool String.
From Verif Require Import Base Bits CppText TextSpec TextLemmas FormatSpec FormatModel FormatProofs.
Import ListNotations.
Open Scope string_scope.
Open Scope list_scope.
Open Scope Z_scope.

(** ** The specification is a function: every text can be read in one way. *)
Theorem C94_one_reading : forall s, exists l, reads s l /\ forall l', reads s l' -> l' = l.
Proof.
  intros s. destruct (reads_exists s) as (l & R). exists l; split; auto.
  intros l' R'. exact (reads_unique s l' R' l R).
Qed.
Print Assumptions C94_one_reading.

(** ** The loop finds the directives the specification speaks of: the first
    one that begins in the text, and its match is the only one there. *)
Theorem C94_first_directive : forall s,
  match regexec s with
  | None => forall a d r, directive d -> s <> a ++ d ++ r
  | Some (so, eo) =>
      exists a d r, s = a ++ d ++ r /\ directive d /\ zlen a = so /\ zlen a + zlen d = eo /\
        forall a' d' r', directive d' -> s = a' ++ d' ++ r' ->
          zlen a <= zlen a' /\ (zlen a' = zlen a -> d' = d)
  end.
Proof.
  intros s. pose proof (regexec_spec s) as H. destruct (regexec s) as [[so eo]|].
  - destruct H as (a & d & r & E & La & Ld & D & N). exists a, d, r.
    rewrite zlen_app in Ld. repeat split; auto; try lia.
    + rewrite E in H0. destruct (app_eq_split _ _ _ _ H0) as [(x & -> & E2)|(x & NE & -> & E2)].
      * rewrite zlen_app. pose proof (zlen_nonneg x); lia.
      * exfalso. eapply (N a' x d' r'); eauto.
    + intros L. rewrite E in H0. destruct (app_eq_split _ _ _ _ H0) as [(x & -> & E2)|(x & NE & -> & E2)].
      * rewrite zlen_app in L. assert (x = []) as -> by (apply zlen_0_nil; lia).
        destruct (directive_unique d d' r r' D H E2); auto.
      * exfalso. eapply (N a' x d' r'); eauto.
  - intros a d r D ->. eapply none_end_dir; eauto.
Qed.
Print Assumptions C94_first_directive.

(** ** Enough arguments *)
Lemma print_shows : forall c d a p, directive d -> shows c d a p -> print c d a = Ok p.
Proof.
  intros c d a p D S. pose proof (cstr_nonul d (directive_nonul d D)) as CD.
  destruct a as [b|t v|bits|s]; cbn in S.
  - destruct S as [(-> & ->)|(-> & ->)]; destruct b; reflexivity.
  - destruct S as [E L]. apply number_short; auto. rewrite CD; auto.
  - destruct S as [E L]. apply number_short; auto. rewrite CD; auto.
  - destruct S as (N & E & L1 & L2). apply string_fits; auto. rewrite CD, (cstr_nonul s N); auto.
Qed.
Lemma reads_dirs : forall s l, reads s l -> Forall directive (takers l).
Proof. induction 1; cbn; auto. destruct (is_percent d); auto. Qed.
Lemma wanted_takers : forall l, wanted l = List.length (takers l).
Proof. induction l as [|[s|d] l IH]; cbn; auto. destruct (is_percent d); cbn; auto. Qed.

Lemma fill_shows : forall c l args pieces more,
  Forall directive (takers l) ->
  Forall2 (fun da p => shows c (fst da) (snd da) p) (combine (takers l) args) pieces ->
  List.length args = wanted l ->
  fill c l (args ++ more) = Ok (filled l pieces).
Proof.
  induction l as [|[s|d] l IH]; intros args pieces more D F L; cbn in *; auto.
  - rewrite (IH args pieces) by auto. reflexivity.
  - destruct (is_percent d).
    + rewrite (IH args pieces) by auto. reflexivity.
    + destruct args as [|a args]; [discriminate|]. cbn in *.
      inversion F as [|x p xs ps S F' E1 E2]; subst. inversion D; subst. cbn in S.
      rewrite (print_shows c d a p) by auto. cbn [bind]. rewrite (IH args ps) by (auto; lia). reflexivity.
Qed.

Theorem C94_fills : forall c_text fmt l args more pieces,
  ~ In 0 fmt -> reads fmt l -> List.length args = wanted l ->
  Forall2 (fun da p => shows c_text (fst da) (snd da) p) (combine (takers l) args) pieces ->
  format c_text fmt (args ++ more) = Ok (filled l pieces).
Proof.
  intros c fmt l args more pieces N R L F. rewrite (format_reads c fmt l) by auto.
  apply fill_shows; auto. eapply reads_dirs; eauto.
Qed.
Print Assumptions C94_fills.

(** ** Too few arguments: an exception *)
Theorem C94_too_few : forall c_text fmt l args,
  ~ In 0 fmt -> reads fmt l -> (List.length args < wanted l)%nat ->
  Forall (fun da => exists p, shows c_text (fst da) (snd da) p) (combine (takers l) args) ->
  format c_text fmt args = Throw InterruptedException.
Proof.
  intros c fmt l args N R L F. rewrite (format_reads c fmt l) by auto.
  apply reads_dirs in R. clear N fmt. revert args L F.
  induction l as [|[s|d] l IH]; intros args L F; cbn in *; [lia| |].
  - rewrite IH by auto. reflexivity.
  - destruct (is_percent d).
    + rewrite IH by auto. reflexivity.
    + destruct args as [|a args]; auto. cbn in *. inversion F as [|x xs (p & S) F']; subst. inversion R; subst.
      cbn in S. rewrite (print_shows c d a p) by auto. cbn [bind]. rewrite IH by (auto; lia). reflexivity.
Qed.
Print Assumptions C94_too_few.
(** The documentation promises IllegalArgumentException (String.hpp:1161, 1220). *)
Theorem C94_exception_refuted : ~ (forall c_text fmt l args,
  ~ In 0 fmt -> reads fmt l -> (List.length args < wanted l)%nat ->
  Forall (fun da => exists p, shows c_text (fst da) (snd da) p) (combine (takers l) args) ->
  format c_text fmt args = Throw IllegalArgumentException).
Proof.
  intros H. destruct (C94_one_reading (T "%d")) as (l & R & _).
  assert (D : directive (T "%d")).
  { apply (Directive [] [] [] [] [] 100); try constructor; auto. }
  assert (R2 : reads (T "%d") [Lit []; Dir (T "%d"); Lit []]).
  { apply (Reads_dir [] (T "%d") [] [Lit []]); auto.
    - intros a1 a2 d r E NE; destruct a1, a2; try discriminate; congruence.
    - constructor. intros a1 a2 d r E NE; destruct a1, a2; try discriminate; congruence. }
  specialize (H (fun _ _ => None) (T "%d") _ [] ltac:(cbn; lia) R2).
  cbn in H. specialize (H ltac:(lia) ltac:(constructor)). discriminate.
Qed.
Print Assumptions C94_exception_refuted.

(** ** Texts without directives are copied, whatever the arguments and even
    with NUL characters inside. *)
Theorem C94_plain : forall c_text fmt args, ~ In 37 fmt -> format c_text fmt args = Ok fmt.
Proof.
  intros c fmt args N. unfold format. apply loop_end.
  intros a1 a2 d r E NE D E2. rewrite app_nil_r in E2.
  assert (I : In 37 (cstr fmt)).
  { rewrite E, E2. apply in_or_app; right. apply in_or_app; left. inversion D; cbn; auto. }
  apply N. clear - I. induction fmt as [|c0 f IH]; cbn in *; auto.
  destruct (Z.eqb_spec c0 0); [destruct I|]. destruct I; auto.
Qed.
Print Assumptions C94_plain.

(** ** A call always ends. *)
Theorem C94_total : forall c_text fmt args, format c_text fmt args <> OutOfFuel.
Proof.
  intros c fmt args. unfold format.
  assert (G : forall f s args, (List.length s < f)%nat -> format_loop c f s args <> OutOfFuel).
  2: apply G; lia.
  assert (P : forall d a, print c d a <> OutOfFuel).
  { intros d a. destruct a; cbn.
    - unfold print_bool. destruct (str_eqb d _); [|destruct (str_eqb d _)]; discriminate.
    - unfold print_number. destruct (c (cstr d) _); [|discriminate]. destruct (snprintf _ _).
      destruct (0 <? _); [|discriminate]. unfold copy_buffer. destruct (_ <=? _); discriminate.
    - unfold print_number. destruct (c (cstr d) _); [|discriminate]. destruct (snprintf _ _).
      destruct (0 <? _); [|discriminate]. unfold copy_buffer. destruct (_ <=? _); discriminate.
    - unfold print_string. destruct (c (cstr d) _); [|discriminate]. destruct (snprintf _ _).
      destruct (buffer_length <? _).
      + destruct (_ =? int_max); [discriminate|]. destruct (snprintf _ _). unfold copy_buffer. destruct (_ <=? _); discriminate.
      + destruct (0 <? _); [|discriminate]. unfold copy_buffer. destruct (_ <=? _); discriminate. }
  induction f as [|f IH]; intros s args0 L; [lia|].
  assert (C : exists t, s = cstr s ++ t /\ (t = [] \/ exists u, t = 0 :: u)).
  { clear. induction s as [|x s (t & E & H)]; cbn; [exists []; auto|].
    destruct (Z.eqb_spec x 0); [subst; exists (0 :: s); eauto|]. exists t; split; auto. cbn; congruence. }
  destruct C as (t & E & Ct).
  pose proof (regexec_spec (cstr s)) as H. destruct (regexec (cstr s)) as [[so eo]|] eqn:R.
  - destruct H as (a & d & r & E2 & _ & _ & D & N).
    rewrite E, E2, <- !app_assoc.
    assert (NC : forall x, ~ In 0 (cstr x)).
    { clear. induction x as [|y x IHx]; cbn; auto. destruct (Z.eqb_spec y 0); cbn; auto. intros [|]; auto. }
    assert (NA : ~ In 0 (a ++ d ++ r)) by (rewrite <- E2; apply NC).
    apply not_in_app in NA as [NA NZ]. apply not_in_app in NZ as [ND NR].
    assert (CR : cstr (r ++ t) = r).
    { rewrite cstr_app by auto. destruct Ct as [->|(u & ->)]; cbn; rewrite app_nil_r; auto. }
    rewrite loop_dir; auto; [|rewrite CR; auto].
    assert (L2 : (List.length (r ++ t) < f)%nat).
    { apply (f_equal (@List.length Z)) in E. rewrite E2, !app_length in E. rewrite app_length.
      pose proof (directive_nonempty d D). destruct d; [congruence|]. cbn in E. lia. }
    destruct (is_percent d).
    + specialize (IH (r ++ t) args0 L2). destruct (format_loop c f (r ++ t) args0); cbn; congruence.
    + destruct args0 as [|x args0]; [discriminate|]. specialize (P d x). destruct (print c d x); cbn; try congruence.
      specialize (IH (r ++ t) args0 L2). destruct (format_loop c f (r ++ t) args0); cbn; congruence.
  - rewrite loop_end by auto. discriminate.
Qed.
Print Assumptions C94_total.

(** ** Where the code is wrong *)

(** A number whose text has more than 128 characters: the copy reads behind
    the buffer; with 128 the last character is replaced by NUL. *)
Theorem C94_number_too_long_refuted : forall c_text d t v out,
  ~ In 0 d -> c_text d (AInt t v) = Some out ->
  (128 < zlen out <= int_max -> print c_text d (AInt t v) = UB OutOfBounds) /\
  (zlen out = 128 -> print c_text d (AInt t v) = Ok (firstn 127 out ++ [0])).
Proof.
  intros c d t v out N E. split; intros L; cbn [print].
  - eapply number_long; eauto. rewrite cstr_nonul; auto.
  - unfold print_number. rewrite cstr_nonul, E by auto. unfold buffer_length.
    pose proof (buffer_128 out L) as B. destruct (snprintf 128 out) as [buf len]. destruct B as [-> B]. exact B.
Qed.
Print Assumptions C94_number_too_long_refuted.
(** A string: wrong for a text of exactly 128 characters. *)
Theorem C94_string_128_refuted : forall c_text d s out,
  ~ In 0 d -> ~ In 0 s -> c_text d (AStr s) = Some out -> zlen out = 128 ->
  print c_text d (AStr s) = Ok (firstn 127 out ++ [0]).
Proof.
  intros c d s out N Ns E L. cbn [print]. unfold print_string. rewrite !cstr_nonul, E by auto. unfold buffer_length.
  pose proof (buffer_128 out L) as B. destruct (snprintf 128 out) as [buf len]. destruct B as [-> B]. exact B.
Qed.
Print Assumptions C94_string_128_refuted.
(** A String argument is cut at its first NUL. *)
Theorem C94_string_nul_refuted : forall c_text d s t,
  print c_text d (AStr (s ++ 0 :: t)) = print c_text d (AStr (s ++ [0])).
Proof.
  intros c d s t. cbn [print]. unfold print_string.
  replace (cstr (s ++ 0 :: t)) with (cstr (s ++ [0])); auto.
  induction s as [|x s IH]; cbn; auto. rewrite IH; auto.
Qed.
Print Assumptions C94_string_nul_refuted.
(** A truth value under %b with a width, a flag or another conversion gives nothing. *)
Theorem C94_bool_refuted : forall c_text d b, d <> T "%b" -> d <> T "%B" -> print c_text d (ABool b) = Ok [].
Proof.
  intros c d b N1 N2. cbn [print]. unfold print_bool.
  destruct (str_eqb d (T "%b")) eqn:E1; [apply str_eqb_eq in E1; congruence|].
  destruct (str_eqb d (T "%B")) eqn:E2; [apply str_eqb_eq in E2; congruence|]. auto.
Qed.
Print Assumptions C94_bool_refuted.
(** An argument of the wrong type is not detected: the behaviour is undefined. *)
Theorem C94_type_refuted : forall c_text fmt a d l x args,
  ~ In 0 fmt -> reads fmt (Lit a :: Dir d :: l) -> is_percent d = false ->
  (forall b, x <> ABool b) -> (forall s, x <> AStr s) -> c_text d x = None ->
  format c_text fmt (x :: args) = UB Precondition.
Proof.
  intros c fmt a d l x args N R P NB NS E. rewrite (format_reads c fmt _ (x :: args) R) by auto.
  cbn [fill]. rewrite P. inversion R; subst.
  assert (Q : print c d x = UB Precondition).
  { destruct x; try (exfalso; eapply NB; reflexivity); try (exfalso; eapply NS; reflexivity);
      cbn [print]; unfold print_number; rewrite cstr_nonul, E by (apply directive_nonul; auto); auto. }
  rewrite Q. reflexivity.
Qed.
Print Assumptions C94_type_refuted.
(** Directives behind a NUL character of the format are not replaced. *)
Theorem C94_format_nul_refuted : forall c_text s t args,
  ~ In 37 s -> ~ In 0 s -> format c_text (s ++ 0 :: t) args = Ok (s ++ 0 :: t).
Proof.
  intros c s t args N N0. unfold format. apply loop_end. rewrite cstr_app by auto. cbn [cstr].
  change (0 =? 0) with true. cbv iota. rewrite app_nil_r.
  intros a1 a2 d r E NE D E2. rewrite app_nil_r in E2. apply N. rewrite E, E2.
  apply in_or_app; right. apply in_or_app; left. inversion D; cbn; auto.
Qed.
Print Assumptions C94_format_nul_refuted.

(** ** Examples *)

(** The C library on %d and int, %s and strings. *)
Definition c_small (d : str) (a : arg) : option str :=
  match a with
  | AInt Cint v => if str_eqb d (T "%d") then Some (itoa v) else None
  | AStr s => if str_eqb d (T "%s") then Some s else None
  | _ => None
  end.
Example ex_format :
  format c_small (T "100%% of %d %s%s, 5%; %B!") [AInt Cint (-42); AStr (T "ox"); AStr (T "en"); ABool true]
  = Ok (T "100% of -42 oxen, 5%; TRUE!").
Proof. vm_compute. reflexivity. Qed.
Example ex_missing : format c_small (T "%d and %d") [AInt Cint 7] = Throw InterruptedException.
Proof. vm_compute. reflexivity. Qed.
Example ex_unknown : format c_small (T "%D %S 50%") [] = Ok (T "%D %S 50%").
Proof. vm_compute. reflexivity. Qed.
Example ex_width_percent : format c_small (T "%-05.3ll% %%") [] = Ok (T "% %").
Proof. vm_compute. reflexivity. Qed.
Example ex_type : format c_small (T "%s") [AInt Cint 3] = UB Precondition.
Proof. vm_compute. reflexivity. Qed.
Example ex_128 : format c_small (T "%s") [AStr (repeat 120 128)] = Ok (repeat 120 127 ++ [0]).
Proof. vm_compute. reflexivity. Qed.
Example ex_129 : format c_small (T "%s") [AStr (repeat 120 129)] = Ok (repeat 120 129).
Proof. vm_compute. reflexivity. Qed.
(** The hypotheses of [C94_fills] hold of a concrete call. *)
Example ex_fills : exists l pieces,
  reads (T "a%db%s") l /\ List.length [AInt Cint 5; AStr (T "x")] = wanted l /\
  Forall2 (fun da p => shows c_small (fst da) (snd da) p) (combine (takers l) [AInt Cint 5; AStr (T "x")]) pieces /\
  filled l pieces = T "a5bx".
Proof.
  assert (NB : forall a b, ~ In 37 a -> none_before a b).
  { intros a b N a1 a2 d r E NE D E2. apply N. rewrite E. apply in_or_app; right.
    destruct a2 as [|x a2]; [congruence|]. inversion D; subst. cbn in E2. injection E2 as -> _. cbn; auto. }
  assert (D1 : directive (T "%d")) by (apply (Directive [] [] [] [] [] 100); try constructor; auto).
  assert (D2 : directive (T "%s")).
  { apply (Directive [] [] [] [] [] 115); auto; [constructor..|]. unfold in_text; cbn; tauto. }
  exists [Lit (T "a"); Dir (T "%d"); Lit (T "b"); Dir (T "%s"); Lit []], [T "5"; T "x"].
  split; [|split; [reflexivity|split; [|reflexivity]]].
  - apply (Reads_dir (T "a") (T "%d") (T "b%s")); auto; [apply NB; cbn; lia|].
    apply (Reads_dir (T "b") (T "%s") []); auto; [apply NB; cbn; lia|].
    constructor. apply NB; cbn; lia.
  - constructor; [|constructor; [|constructor]]; cbn; repeat split; try reflexivity; try lia; try discriminate.
Qed.
