(** C98: URL and URLConnection. *)

From Coq Require Import ZArith List Lia Bool String.
From Verif Require Import Base Bits CppText TextSpec TextLemmas NetModel.
Import ListNotations.
Open Scope string_scope.
Open Scope list_scope.
Open Scope Z_scope.

(** ** URL *)

(** A URL made from a text ignores it: all parts are empty, and asking for the
    port or the text of the URL reads an uninitialised number. So no URL
    with a protocol (every URL has one) survives. *)
Theorem C98_spec_refuted : forall spec,
  let u := URL_spec spec in
  getProtocol u = [] /\ getHost u = [] /\ getPath u = [] /\ getQuery u = [] /\
  getPort u = UB Uninitialised /\ url_toString u = UB Uninitialised.
Proof. intros; repeat split. Qed.
Print Assumptions C98_spec_refuted.

Theorem C98_copy : forall u, URL_copy u = u.
Proof. destruct u; reflexivity. Qed.
Print Assumptions C98_copy.

(** The text of a URL whose parts are set: protocol, host, port unless it is
    negative, path unless it is "/", query. *)
Theorem C98_text : forall pr h p pa q,
  ~ In 0 (pr ++ h ++ pa ++ q) ->
  url_toString {| protocol := pr; host := h; port := Some p; path := pa; query := q |} =
  Ok (pr ++ T "://" ++ h ++ (if p <? 0 then [] else T ":" ++ itoa p) ++
      (if str_eqb pa (T "/") then [] else pa) ++ match q with [] => [] | _ => T "?" ++ q end).
Proof.
  intros pr h p pa q N. unfold url_toString, getPort; cbn [port protocol host path query bind].
  assert (C : forall s, ~ In 0 s -> cstr s = s).
  { induction s as [|c s IH]; cbn; auto. intros H.
    destruct (Z.eqb_spec c 0); [exfalso; apply H; auto|]. rewrite IH; auto. }
  assert (I : ~ In 0 (itoa p)).
  { assert (U : forall v, 0 <= v -> ~ In 0 (utoa 10 v)).
    { intros v V I. destruct (utoa_canonical 10 v ltac:(lia) V) as ((_ & ds & F & _) & _ & _).
      clear - F I. induction F as [|c d cs ds D F IH]; [destruct I|].
      destruct I as [->|I]; auto. destruct D as [D _]. cbn in D. discriminate. }
    unfold itoa. destruct (Z.ltb_spec p 0).
    - intros [E|I]; [discriminate|]. exact (U (- p) ltac:(lia) I).
    - apply U; lia. }
  assert (Q : (-1 <? p) = negb (p <? 0)) by (destruct (Z.ltb_spec (-1) p), (Z.ltb_spec p 0); auto; lia).
  assert (Q2 : str_eqb q [] = match q with [] => true | _ => false end) by (destruct q; auto).
  rewrite Q, Q2. rewrite C.
  - f_equal. destruct (p <? 0), (str_eqb pa (T "/")), q; cbn [negb]; rewrite <- ?app_assoc, ?app_nil_r; cbn [app]; auto;
      rewrite ?app_nil_r; auto.
  - intros B. apply N. rewrite !in_app_iff.
    destruct (p <? 0), (str_eqb pa (T "/")), q; cbn [negb] in B;
      repeat (rewrite in_app_iff in B); cbn in B |- *; intuition (try discriminate; auto).
Qed.
Print Assumptions C98_text.

(** ** URLConnection: the value set last is the one returned, and setting one
    thing does not change another. *)
Definition kind (s : setting) : nat :=
  match s with
  | SInput _ => 0 | SOutput _ => 1 | SCaches _ => 2 | SInteraction _ => 3 | SModified _ => 4 | SRead _ => 5 | SConnect _ => 6
  end.
(** What the getter that belongs to [s] returns, compared with the value in [s]. *)
Definition answers (c : connection) (s : setting) : Prop :=
  match s with
  | SInput b => getDoInput c = Ok b
  | SOutput b => getDoOutput c = Ok b
  | SCaches b => getUseCaches c = Ok b
  | SInteraction b => getAllowUserInteraction c = Ok b
  | SModified t => getIfModifiedSince c = Ok t
  | SRead t => getReadTimeout c = Ok t
  | SConnect t => getConnectTimeout c = Ok t
  end.
Theorem C98_settings : forall c before s after,
  (forall x, In x after -> kind x <> kind s) ->
  answers (fold_left set (before ++ s :: after) c) s /\
  c_url (fold_left set (before ++ s :: after) c) = c_url c.
Proof.
  intros c before s after N.
  assert (U : forall l c, c_url (fold_left set l c) = c_url c).
  { induction l as [|x l IH]; intros c0; cbn; auto. rewrite IH. destruct x; reflexivity. }
  split; [|apply U].
  rewrite fold_left_app. generalize (fold_left set before c). clear c before. intros c. cbn [fold_left].
  assert (A : answers (set c s) s) by (destruct s; reflexivity).
  revert A. generalize (set c s). clear c.
  induction after as [|x after IH]; intros c A; cbn; auto.
  apply IH; [intros y Y; apply N; cbn; auto|].
  specialize (N x (or_introl eq_refl)). destruct x, s; cbn in *; try congruence; auto.
Qed.
Print Assumptions C98_settings.
(** A new connection: input allowed, output not. *)
Theorem C98_new : forall u, getDoInput (connection_of u) = Ok true /\ getDoOutput (connection_of u) = Ok false /\
  c_url (connection_of u) = u.
Proof. intros [p h po pa q]; repeat split. Qed.
Print Assumptions C98_new.
(** The other settings have no value until one is set. *)
Theorem C98_defaults_refuted : forall u,
  getUseCaches (connection_of u) = UB Uninitialised /\ getAllowUserInteraction (connection_of u) = UB Uninitialised /\
  getIfModifiedSince (connection_of u) = UB Uninitialised /\ getReadTimeout (connection_of u) = UB Uninitialised /\
  getConnectTimeout (connection_of u) = UB Uninitialised.
Proof. intros; repeat split. Qed.
Print Assumptions C98_defaults_refuted.

Example ex_url : url_toString {| protocol := T "http"; host := T "a.b"; port := Some 80; path := T "/x"; query := T "k=v" |}
  = Ok (T "http://a.b:80/x?k=v").
Proof. vm_compute. reflexivity. Qed.
Example ex_default : url_toString URL_default = Ok (T "://").
Proof. vm_compute. reflexivity. Qed.
