(** C125: request method and response of an HttpURLConnection. *)

From Coq Require Import ZArith List Lia String.
From Verif Require Import Base CppText TextSpec HttpModel.
Import ListNotations.
Open Scope string_scope.
Open Scope list_scope.
Open Scope Z_scope.

(** Specification: the last request method of a history and its last response. *)
Definition last_method (l : list event) (t : str) : Prop :=
  exists pre post, l = pre ++ SetMethod t :: post /\ forall u, ~ In (SetMethod u) post.
Definition last_response (l : list event) (c : Z) (t : str) : Prop :=
  exists pre post, l = pre ++ Response c t :: post /\ forall d u, ~ In (Response d u) post.

Lemma keeps_method l : forall h, (forall u, ~ In (SetMethod u) l) -> method (fold_left http_step l h) = method h.
Proof.
  induction l as [|e l IH]; intros h N; [reflexivity|]. cbn [fold_left]. rewrite IH by (intros u I; apply (N u); now right).
  destruct e as [t|c t]; [exfalso; apply (N t); now left|reflexivity].
Qed.
Lemma keeps_response l : forall h, (forall d u, ~ In (Response d u) l) ->
  responseCode (fold_left http_step l h) = responseCode h /\ responseMessage (fold_left http_step l h) = responseMessage h.
Proof.
  induction l as [|e l IH]; intros h N; [auto|]. cbn [fold_left].
  destruct (IH (http_step h e)) as [-> ->]; [intros d u I; apply (N d u); now right|].
  destruct e as [t|c t]; [auto|exfalso; apply (N c t); now left].
Qed.

(** getMethod answers the method set last, and GET before. *)
Theorem C125_method : forall l,
  (forall t, last_method l t -> getMethod (http_run l) = Ok t) /\
  ((forall t, ~ In (SetMethod t) l) -> getMethod (http_run l) = Ok (T "GET")).
Proof.
  intros l. unfold getMethod, http_run. split.
  - intros t (pre & post & -> & N). rewrite fold_left_app. cbn [fold_left]. rewrite keeps_method by exact N. reflexivity.
  - intros N. rewrite keeps_method by exact N. reflexivity.
Qed.
Print Assumptions C125_method.

(** Once a response has been stored the getters answer the last one, whatever
    methods are set. *)
Theorem C125_response_partial : forall l c t, last_response l c t ->
  getResponseCode (http_run l) = Ok c /\ getResponseMessage (http_run l) = Ok t.
Proof.
  intros l c t (pre & post & -> & N). unfold getResponseCode, getResponseMessage, http_run. rewrite fold_left_app. cbn [fold_left].
  destruct (keeps_response post (http_step (fold_left http_step pre http_new) (Response c t)) N) as [-> ->]. split; reflexivity.
Qed.
Print Assumptions C125_response_partial.

(** Before that, in every history, the response code is an indeterminate value. *)
Theorem C125_response_refuted : forall l, (forall c t, ~ In (Response c t) l) ->
  getResponseCode (http_run l) = UB Uninitialised /\ getResponseMessage (http_run l) = Ok [].
Proof.
  intros l N. unfold getResponseCode, getResponseMessage, http_run. destruct (keeps_response l http_new N) as [-> ->]. split; reflexivity.
Qed.
Print Assumptions C125_response_refuted.

Example C125_ex :
  last_method [SetMethod (T "PUT"); Response 404 (T "Not Found"); SetMethod (T "POST"); Response 200 (T "OK")] (T "POST") /\
  last_response [Response 404 (T "Not Found"); Response 200 (T "OK"); SetMethod (T "POST")] 200 (T "OK").
Proof.
  split.
  - exists [SetMethod (T "PUT"); Response 404 (T "Not Found")], [Response 200 (T "OK")]. split; [reflexivity|]. intros u [H|[]]. discriminate.
  - exists [Response 404 (T "Not Found")], [SetMethod (T "POST")]. split; [reflexivity|]. intros d u [H|[]]. discriminate.
Qed.
