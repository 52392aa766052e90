(** C96: exceptions carry their message and cause, and are caught where they should be. *)

From Coq Require Import ZArith List Lia Bool String.
From Verif Require Import Base Bits CppText TextSpec TextLemmas ExceptionsSpec ExceptionsModel.
Import ListNotations.
Open Scope string_scope.
Open Scope list_scope.
Open Scope Z_scope.

Theorem C96_message : forall c k, declares c k = true ->
  getMessage (construct c k) = match k with Message m | Both m _ => m | _ => [] end.
Proof. intros c k _. destruct c, k; reflexivity. Qed.
Print Assumptions C96_message.

(** The cause is the one given. *)
Theorem C96_cause : forall c m p,
  (declares c (Both m p) = true -> getCause (construct c (Both m p)) = Ok p) /\
  (declares c (Cause p) = true -> getCause (construct c (Cause p)) = Ok p).
Proof. intros c m p; split; intros _; destruct c; reflexivity. Qed.
Print Assumptions C96_cause.
(** An exception made without a cause has no null cause: reading it reads an
    uninitialised pointer, for every class. *)
Theorem C96_no_cause_refuted : forall c m,
  getCause (construct c Plain) = UB Uninitialised /\
  getCause (construct c (Message m)) = UB Uninitialised.
Proof. intros c m; split; destruct c; reflexivity. Qed.
Print Assumptions C96_no_cause_refuted.

Theorem C96_index_text : forall i, exists n, canonical_signed 10 n i /\
  getMessage (construct_index i) = T "String index out of range: " ++ n.
Proof.
  intros i. exists (itoa i). split; [|reflexivity].
  unfold itoa, canonical_signed. destruct (Z.ltb_spec i 0).
  - right. exists (utoa 10 (- i)), (- i). repeat split; try lia; apply utoa_canonical; lia.
  - left. apply utoa_canonical; lia.
Qed.
Print Assumptions C96_index_text.

Theorem C96_assertion_text : forall v,
  match v with
  | VInt x | VLong x => canonical_signed 10 (getMessage (construct_assertion v)) x
  | VBool b => getMessage (construct_assertion v) = if b then T "true" else T "false"
  | VChar c => c <> 0 -> getMessage (construct_assertion v) = [c]
  end.
Proof.
  assert (A : forall x, canonical_signed 10 (itoa x) x).
  { intros i. unfold itoa, canonical_signed. destruct (Z.ltb_spec i 0).
    - right. exists (utoa 10 (- i)), (- i). repeat split; try lia; apply utoa_canonical; lia.
    - left. apply utoa_canonical; lia. }
  intros [x|x|c|b]; cbn; auto. intros N. unfold construct_assertion, construct, getMessage; cbn.
  destruct (Z.eqb_spec c 0); [congruence|auto].
Qed.
Print Assumptions C96_assertion_text.

(** ** Which handler takes which exception *)

Lemma catches_derives : forall n c h, catches_n n c h = true -> derives base c h.
Proof.
  induction n as [|n IH]; intros c h; cbn [catches_n].
  - destruct c, h; intros H; try discriminate; apply Derives_refl.
  - destruct (match c, h with
     | Throwable, Throwable | Error, Error | AssertionErr, AssertionErr | Exception, Exception
     | RuntimeException, RuntimeException | ArithmeticExc, ArithmeticExc | ClassCastExc, ClassCastExc
     | CloneNotSupportedExc, CloneNotSupportedExc | IllegalArgumentExc, IllegalArgumentExc
     | IndexOutOfBoundsExc, IndexOutOfBoundsExc | InterruptedExc, InterruptedExc
     | NegativeArraySizeExc, NegativeArraySizeExc | NoSuchElementExc, NoSuchElementExc
     | NumberFormatExc, NumberFormatExc | StringIndexOutOfBoundsExc, StringIndexOutOfBoundsExc
     | UnsupportedOperationExc, UnsupportedOperationExc | EmptyStackExc, EmptyStackExc
     | WebApplicationExc, WebApplicationExc | ClientErrorExc, ClientErrorExc
     | BadRequestExc, BadRequestExc | IOExc, IOExc | UnsupportedEncodingExc, UnsupportedEncodingExc
     | GeneralSecurityExc, GeneralSecurityExc | NoSuchAlgorithmExc, NoSuchAlgorithmExc
     | MediaTypeExc, MediaTypeExc | CQLExc, CQLExc => true
     | _, _ => false
     end) eqn:E.
    + intros _. destruct c, h; try discriminate; apply Derives_refl.
    + destruct (base c) as [b|] eqn:B; [|discriminate]. intros H. eapply Derives_step; eauto.
Qed.

(** A handler takes exactly the classes that derive from its class in Java,
    with these exceptions: NumberFormatException is no
    IllegalArgumentException here, and InterruptedException and
    CloneNotSupportedException are RuntimeExceptions here. *)
Lemma java_derives_dec : forall c h,
  (derives java_super c h <->
   catches c h = true /\ ~ (h = RuntimeException /\ (c = InterruptedExc \/ c = CloneNotSupportedExc))
   \/ (c = NumberFormatExc /\ h = IllegalArgumentExc)).
Proof.
  intros c h. split.
  - intros D.
    assert (P : forall a, derives java_super a h ->
      catches a h = true /\ ~ (h = RuntimeException /\ (a = InterruptedExc \/ a = CloneNotSupportedExc))
      \/ (a = NumberFormatExc /\ h = IllegalArgumentExc)); [|auto].
    clear c D. intros a D.
    repeat (inversion D as [x E1 E2|x y z S D2]; subst; clear D;
      [destruct h; left; (split; [reflexivity|intros [Q1 Q2]; try discriminate; destruct Q2; discriminate])|]).
    all: try (rename D2 into D).
    destruct a; cbn in S; try discriminate; injection S as <-;
    repeat (inversion D as [x E1 E2|x y z S D2]; subst; clear D;
      [first [left; split; [reflexivity|intros [Q1 Q2]; try discriminate; destruct Q2; discriminate]
             |right; split; reflexivity]|
       cbn in S; try discriminate; injection S as <-; rename D2 into D]).
  - intros [[H N]|[-> ->]].
    + assert (D : derives base c h) by (eapply catches_derives; exact H).
      clear H.
      destruct c; repeat (inversion D as [x E1 E2|x y z S D2]; subst; clear D;
        [first [exfalso; apply N; split; [reflexivity|tauto]
               |repeat (first [apply Derives_refl | eapply Derives_step; [reflexivity|]])]|
         cbn in S; try discriminate; injection S as <-; rename D2 into D]).
    + eapply Derives_step; [reflexivity|apply Derives_refl].
Qed.

Theorem C96_handlers : forall c h,
  derives java_super c h <->
  catches c h = true /\ ~ (h = RuntimeException /\ (c = InterruptedExc \/ c = CloneNotSupportedExc))
  \/ (c = NumberFormatExc /\ h = IllegalArgumentExc).
Proof. exact java_derives_dec. Qed.
Print Assumptions C96_handlers.
Theorem C96_handlers_refuted :
  derives java_super NumberFormatExc IllegalArgumentExc /\ catches NumberFormatExc IllegalArgumentExc = false /\
  catches InterruptedExc RuntimeException = true /\ ~ derives java_super InterruptedExc RuntimeException /\
  catches CloneNotSupportedExc RuntimeException = true /\ ~ derives java_super CloneNotSupportedExc RuntimeException.
Proof.
  repeat split; try reflexivity; rewrite java_derives_dec || idtac.
  - right; auto.
  - intros [[_ N]|[E _]]; [apply N; auto|discriminate].
  - intros [[_ N]|[E _]]; [apply N; auto|discriminate].
Qed.
Print Assumptions C96_handlers_refuted.

(** ** Application: the program gets its arguments; the exit code is 0 exactly
    when it returns, and the message of an exception is printed. *)
Theorem C96_application : forall program argv,
  (fst (application program argv) = 0 <-> program argv = Returns) /\
  (forall c t, program argv = Throws c t -> derives java_super c Exception ->
     application program argv = (1, Some (T "Application Exception: " ++ getMessage t))) /\
  (forall c t, program argv = Throws c t -> derives java_super c Error ->
     application program argv = (1, Some (T "Unhandled Exception"))) /\
  (program argv = ThrowsOther -> application program argv = (1, Some (T "Unhandled Exception"))) /\
  (program argv = Returns -> application program argv = (0, None)).
Proof.
  intros program argv. unfold application. split; [|split; [|split; [|split; intros ->; reflexivity]]]; [split| |].
  - destruct (program argv) as [|c t|]; auto; try discriminate. destruct (catches c Exception); discriminate.
  - intros ->; reflexivity.
  - intros c t -> D. apply java_derives_dec in D as [[-> _]|[_ E]]; [reflexivity|discriminate].
  - intros c t -> D. apply java_derives_dec in D as [[H _]|[_ E]]; [|discriminate].
    destruct c; try discriminate; reflexivity.
Qed.
Print Assumptions C96_application.

Example ex_exception :
  getMessage (construct BadRequestExc (Both (T "bad") 4096)) = T "bad" /\
  getCause (construct BadRequestExc (Both (T "bad") 4096)) = Ok 4096 /\
  getMessage (construct_index (-1)) = T "String index out of range: -1".
Proof. repeat split. Qed.
Example ex_application :
  application (fun a => if (2 <? zlen a) then Throws IOExc (construct IOExc (Message (T "no file"))) else Returns)
              [T "prog"; T "a"; T "b"] = (1, Some (T "Application Exception: no file")).
Proof. vm_compute. reflexivity. Qed.
