(** * C74: the remaining small functions of String *)

From Coq Require Import ZArith List Lia Bool String.
From Verif Require Import Base Bits CppText TextSpec TextLemmas StringModel StringSpec StringProofs StringProofs2.
From Verif Require IntegerModel IntegerProofs2 IntegerProofs3.
Import ListNotations.
Open Scope string_scope.
Open Scope list_scope.
Open Scope Z_scope.

(** subString(begin): the characters from [begin] to the end; empty when
    [begin] is outside the string. *)
Theorem C74_subString s i : 0 <= i <= zlen s -> exists t, subString1 s i = Ok t /\ is_slice s i (zlen s) t.
Proof. intros H. unfold subString1. apply subString_in; lia. Qed.
Print Assumptions C74_subString.
Theorem C74_subString_outside s i : i < 0 \/ zlen s < i -> subString1 s i = Ok [].
Proof. intros H. unfold subString1. apply subString_out. lia. Qed.
Print Assumptions C74_subString_outside.

(** operator[]: the character, the terminator at the end. *)
Theorem C74_index s i : 0 <= i < zlen s -> exists c, index_op s i = Ok c /\ znth s i = Some c.
Proof.
  intros H. destruct (znth_ex s i H) as (c & C). exists c. split; [|exact C]. unfold index_op, str_get.
  now rewrite C.
Qed.
Print Assumptions C74_index.
Theorem C74_index_end s : index_op s (zlen s) = Ok 0.
Proof. unfold index_op, str_get. rewrite Z.eqb_refl, (proj2 (znth_None s (zlen s))) by lia. reflexivity. Qed.
Print Assumptions C74_index_end.
(** Nothing is checked: other indices read outside the string. *)
Theorem C74_index_refuted s i : i < 0 \/ zlen s < i -> index_op s i = UB OutOfBounds.
Proof.
  intros H. pose proof (zlen_nonneg s). unfold index_op, str_get. rewrite (proj2 (znth_None s i)) by lia. destruct (Z.eqb_spec i (zlen s)); [lia|reflexivity].
Qed.
Print Assumptions C74_index_refuted.

(** contains(CharSequence): some position where the argument occurs. *)
Theorem C74_contains s p : no_nul p -> (contains_seq s p = true <-> exists i, occurs p s i).
Proof.
  intros N. unfold contains_seq. rewrite cstr_id by exact N. unfold contains.
  pose proof (str_find_spec p s 0 ltac:(lia)) as F. destruct (str_find p s 0) as [i|].
  - split; [intros _|reflexivity]. exists i. apply F.
  - split; [discriminate|]. intros (i & O). exfalso. apply (F i); [|exact O]. apply occurs_nonneg in O. lia.
Qed.
Print Assumptions C74_contains.

(** contentEquals: the same characters (for strings without NUL). *)
Theorem C74_contentEquals a b : no_nul a -> no_nul b -> (contentEquals a b = true <-> a = b).
Proof.
  intros A B. unfold contentEquals, strcmp. rewrite !cstr_id by assumption. rewrite Z.eqb_eq. clear A B. split.
  - revert b. induction a as [|x a IH]; intros [|y b]; cbn [bytes_cmp]; try discriminate; [reflexivity|].
    destruct (Z.ltb_spec x y); [discriminate|]. destruct (Z.ltb_spec y x); [discriminate|]. intros H1. f_equal; [lia|auto].
  - intros ->. induction b as [|x b IH]; cbn [bytes_cmp]; [reflexivity|]. rewrite Z.ltb_irrefl. exact IH.
Qed.
Print Assumptions C74_contentEquals.
(** A NUL hides what follows. *)
Theorem C74_contentEquals_refuted : contentEquals [97; 0; 98] [97; 0; 99] = true /\ [97; 0; 98] <> [97; 0; 99].
Proof. split; [reflexivity|discriminate]. Qed.
Print Assumptions C74_contentEquals_refuted.

(** join: each element preceded by the delimiter, less the first delimiter. *)
Theorem C74_join d l : join d l = skipn (List.length (match l with [] => [] | _ => d end)) (flat_map (fun x => d ++ x) l).
Proof.
  destruct l as [|x l]; [reflexivity|]. cbn [flat_map]. rewrite <- app_assoc, skipn_app, skipn_all, Nat.sub_diag. cbn [skipn app].
  revert x. induction l as [|y l IH]; intros x; [cbn; now rewrite app_nil_r|].
  change (join d (x :: y :: l)) with (x ++ d ++ join d (y :: l)). rewrite IH. cbn [flat_map]. now rewrite <- app_assoc.
Qed.
Print Assumptions C74_join.

(** valueOf *)
Theorem C74_valueOf_bool b : valueOf_bool b = if b then T "true" else T "false".
Proof. destruct b; reflexivity. Qed.
Print Assumptions C74_valueOf_bool.
Theorem C74_valueOf_int n : canonical_signed 10 (valueOf_int n) n.
Proof. apply IntegerProofs2.itoa_canonical. Qed.
Print Assumptions C74_valueOf_int.
Theorem C74_valueOf_round_trip n : is_int n -> IntegerModel.parseInt (valueOf_int n) 10 = Ok n.
Proof.
  intros N. pose proof (C74_valueOf_int n) as C. apply IntegerProofs3.parse_accepts; [lia|now apply IntegerProofs3.canonical_signed_numeral| |exact N].
  eapply IntegerProofs3.canonical_small; eauto. lia.
Qed.
Print Assumptions C74_valueOf_round_trip.
Theorem C74_valueOf_char c : c <> 0 -> valueOf_char c = [c].
Proof. intros H. unfold valueOf_char. destruct (Z.eqb_spec c 0); [contradiction|reflexivity]. Qed.
Print Assumptions C74_valueOf_char.
Theorem C74_valueOf_char_refuted : valueOf_char 0 = [].
Proof. reflexivity. Qed.
Print Assumptions C74_valueOf_char_refuted.
Example C74_ex : join (T ", ") [T "a"; T ""; T "bc"] = T "a, , bc" /\ contains_seq (T "hello") (T "ll") = true /\ subString1 (T "hello") 3 = Ok (T "lo").
Proof. vm_compute. auto. Qed.
