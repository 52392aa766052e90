(** Property theorems C36-C40: java.lang.String. *)

From Coq Require Import ZArith List Lia Bool String.
From Verif Require Import Base Bits CppText TextSpec TextLemmas StringModel StringSpec StringProofs StringProofs2.
Import ListNotations.
Open Scope Z_scope.

(** ** C36 search *)

(** contains: true iff the pattern occurs somewhere. *)
Theorem C36_contains : forall s p, contains s p = true <-> exists i, occurs p s i.
Proof. exact contains_spec. Qed.
Print Assumptions C36_contains.
Example C36_contains_ex : contains (T "hello") (T "ell") = true /\ contains (T "hello") (T "elk") = false.
Proof. vm_compute; auto. Qed.

Theorem C36_startsWith : forall s p, startsWith s p = true <-> occurs p s 0.
Proof. exact startsWith_ok. Qed.
Print Assumptions C36_startsWith.
Theorem C36_startsWith_offset : forall s p off,
  startsWith_at s p off = true <-> 0 <= off /\ occurs p s off.
Proof. exact startsWith_at_ok. Qed.
Print Assumptions C36_startsWith_offset.
Example C36_startsWith_ex : startsWith (T "hello") (T "he") = true /\ startsWith_at (T "hello") (T "lo") 3 = true
  /\ startsWith_at (T "hello") (T "lo") 4 = false.
Proof. vm_compute; auto. Qed.

Theorem C36_endsWith : forall s p, exists b, endsWith s p = Ok b /\ (b = true <-> exists a, s = a ++ p).
Proof. exact endsWith_ok. Qed.
Print Assumptions C36_endsWith.
Example C36_endsWith_ex : endsWith (T "hello") (T "llo") = Ok true /\ endsWith (T "o") (T "llo") = Ok false.
Proof. vm_compute; auto. Qed.

(** indexOf(char): first occurrence; wrong for the NUL character. *)
Theorem C36_indexOf_char : forall s ch, ch <> 0 ->
  first_in [ch] s 0 (zlen s - 1) (indexOf_char s ch).
Proof. exact indexOf_char_ok. Qed.
Print Assumptions C36_indexOf_char.
Example C36_indexOf_char_ex : indexOf_char (T "hello") 108 = 2 /\ indexOf_char (T "hello") 122 = -1.
Proof. vm_compute; auto. Qed.
Theorem C36_indexOf_nul_refuted : exists s, ~ first_in [0] s 0 (zlen s - 1) (indexOf_char s 0).
Proof.
  exists (T "a"). vm_compute (indexOf_char _ _). intros [(A & B & _)|(A & _)]; [|discriminate].
  apply occurs_char in B. discriminate.
Qed.
Print Assumptions C36_indexOf_nul_refuted.

Theorem C36_indexOf_char_from : forall s ch from, ch <> 0 \/ 0 <= from ->
  first_in [ch] s (Z.max 0 from) (zlen s - 1) (indexOf_char_from s ch from).
Proof. exact indexOf_char_from_ok. Qed.
Print Assumptions C36_indexOf_char_from.
Example C36_indexOf_char_from_ex : indexOf_char_from (T "hello") 108 3 = 3
   /\ indexOf_char_from (T "hello") 108 4 = -1 /\ indexOf_char_from (T "hello") 108 (-7) = 2.
Proof. vm_compute; auto. Qed.

Theorem C36_indexOf_str : forall s p, p <> [] -> first_in p s 0 (zlen s) (indexOf_str s p).
Proof. exact indexOf_str_ok. Qed.
Print Assumptions C36_indexOf_str.
Theorem C36_indexOf_str_from : forall s p from, p <> [] -> small s -> is_int from ->
  exists r, indexOf_str_from s p from = Ok r /\ first_in p s (Z.max 0 from) (zlen s) r.
Proof. exact indexOf_str_from_ok. Qed.
Print Assumptions C36_indexOf_str_from.
Example C36_indexOf_str_ex : indexOf_str (T "banana") (T "an") = 1
  /\ indexOf_str_from (T "banana") (T "an") 2 = Ok 3 /\ indexOf_str_from (T "banana") (T "an") 4 = Ok (-1).
Proof. vm_compute; auto. Qed.
(** The empty pattern occurs at 0 but -1 is returned. *)
Theorem C36_indexOf_empty_refuted : exists s, ~ first_in [] s 0 (zlen s) (indexOf_str s []).
Proof.
  exists (T "a"). vm_compute (indexOf_str _ _). intros [(A & _)|(_ & B)]; [lia|].
  apply (B 0); [vm_compute; split; discriminate|]. exists [], (T "a"). auto.
Qed.
Print Assumptions C36_indexOf_empty_refuted.

Theorem C36_lastIndexOf_char : forall s ch, small s ->
  exists r, lastIndexOf_char s ch = Ok r /\ last_in [ch] s 0 (zlen s - 1) r.
Proof. exact lastIndexOf_char_ok. Qed.
Print Assumptions C36_lastIndexOf_char.
Example C36_lastIndexOf_char_ex : lastIndexOf_char (T "banana") 97 = Ok 5 /\ small (T "banana").
Proof. split; [reflexivity | vm_compute; discriminate]. Qed.

(** lastIndexOf(char, from): the code searches from from-1 downwards, so it
    misses an occurrence exactly at [from]; this is its exact behaviour. *)
Theorem C36_lastIndexOf_char_from_partial : forall s ch from, s <> [] -> small s ->
  exists r, lastIndexOf_char_from s ch from = Ok r /\
    last_in [ch] s 0 (if zlen s <=? from then zlen s - 1 else from - 1) r.
Proof. exact lastIndexOf_char_from_ok. Qed.
Print Assumptions C36_lastIndexOf_char_from_partial.
Theorem C36_lastIndexOf_char_from_refuted : exists s ch from r, 0 <= from < zlen s /\
  lastIndexOf_char_from s ch from = Ok r /\ ~ last_in [ch] s 0 from r.
Proof.
  exists (T "ab"), 98, 1, (-1). split; [vm_compute; split; congruence|]. split; [reflexivity|].
  intros [(A & _)|(_ & B)]; [lia|]. apply (B 1); [lia|]. apply occurs_char. reflexivity.
Qed.
Print Assumptions C36_lastIndexOf_char_from_refuted.
(** On the empty string it reads outside the buffer. *)
Theorem C36_lastIndexOf_char_from_empty_refuted : exists ch from,
  lastIndexOf_char_from [] ch from = UB OutOfBounds.
Proof. exists 97, 2. reflexivity. Qed.
Print Assumptions C36_lastIndexOf_char_from_empty_refuted.

Theorem C36_lastIndexOf_str : forall s p, last_in p s 0 (zlen s) (lastIndexOf_str s p).
Proof. exact lastIndexOf_str_ok. Qed.
Print Assumptions C36_lastIndexOf_str.
Example C36_lastIndexOf_str_ex : lastIndexOf_str (T "banana") (T "an") = 3 /\ lastIndexOf_str (T "ab") (T "x") = -1.
Proof. vm_compute; auto. Qed.

(** lastIndexOf(String, from): exact behaviour. When from + |p| exceeds the
    length it answers -1 although an earlier occurrence may exist. *)
Theorem C36_lastIndexOf_str_from_partial : forall s p from, s <> [] -> small s -> small p -> no_nul p ->
  exists r, lastIndexOf_str_from s p from = Ok r /\
   ((from < 0 -> r = -1) /\
    (zlen s <= from -> last_in p s 0 (zlen s) r) /\
    (0 <= from < zlen s -> from + zlen p <= zlen s -> last_in p s 0 from r) /\
    (0 <= from < zlen s -> zlen s < from + zlen p -> r = -1)).
Proof. exact lastIndexOf_str_from_ok. Qed.
Print Assumptions C36_lastIndexOf_str_from_partial.
Example C36_lastIndexOf_str_from_ex : lastIndexOf_str_from (T "banana") (T "an") 2 = Ok 1 /\ no_nul (T "an").
Proof. split; [reflexivity|]. repeat constructor; discriminate. Qed.
Theorem C36_lastIndexOf_str_from_refuted : exists s p from r,
  lastIndexOf_str_from s p from = Ok r /\ ~ last_in p s 0 from r.
Proof.
  exists (T "abc"), (T "ab"), 2, (-1). split; [reflexivity|].
  intros [(A & _)|(_ & B)]; [lia|]. apply (B 0); [lia|]. exists [], (T "c"). auto.
Qed.
Print Assumptions C36_lastIndexOf_str_from_refuted.

(** ** C37 bounds *)

Theorem C37_charAt_inside : forall s i, 0 <= i < zlen s -> small s ->
  exists c, znth s i = Some c /\ charAt s i = Ok c.
Proof. exact charAt_in. Qed.
Print Assumptions C37_charAt_inside.
Theorem C37_charAt_outside : forall s i, s <> [] -> small s -> (i < 0 \/ zlen s <= i) ->
  charAt s i = Throw StringIndexOutOfBoundsException.
Proof. exact charAt_out. Qed.
Print Assumptions C37_charAt_outside.
(** On the empty string: index 0 yields NUL, larger indices are out-of-bounds reads. *)
Theorem C37_charAt_empty : forall i, is_int i ->
  charAt [] i = if i <? 0 then Throw StringIndexOutOfBoundsException
                else if i =? 0 then Ok 0 else UB OutOfBounds.
Proof. exact charAt_empty. Qed.
Print Assumptions C37_charAt_empty.
Theorem C37_charAt_refuted : exists i, is_int i /\ charAt [] i = UB OutOfBounds.
Proof. exists 5. split; [vm_compute; split; discriminate | reflexivity]. Qed.
Print Assumptions C37_charAt_refuted.
Example C37_charAt_ex : charAt (T "abc") 2 = Ok 99 /\ charAt (T "abc") 3 = Throw StringIndexOutOfBoundsException.
Proof. vm_compute; auto. Qed.

Theorem C37_getStringFromIndex_inside : forall s i, small s -> 0 <= i < zlen s ->
  getStringFromIndex s i = Ok (skipn (Z.to_nat i) s).
Proof. exact getStringFromIndex_in. Qed.
Print Assumptions C37_getStringFromIndex_inside.
Theorem C37_getStringFromIndex_outside : forall s i, s <> [] -> small s -> (i < 0 \/ zlen s <= i) ->
  getStringFromIndex s i = Throw StringIndexOutOfBoundsException.
Proof. exact getStringFromIndex_out. Qed.
Print Assumptions C37_getStringFromIndex_outside.
Theorem C37_getStringFromIndex_empty : forall i, is_int i ->
  getStringFromIndex [] i = if i <? 0 then Throw StringIndexOutOfBoundsException
                else if i =? 0 then Ok [] else Throw OutOfRange.
Proof. exact getStringFromIndex_empty. Qed.
Print Assumptions C37_getStringFromIndex_empty.
Example C37_getStringFromIndex_ex : getStringFromIndex (T "abc") 1 = Ok (T "bc").
Proof. reflexivity. Qed.

Theorem C37_subString_inside : forall s i j, 0 <= i <= j -> j <= zlen s ->
  exists t, subString s i j = Ok t /\ is_slice s i j t.
Proof. exact subString_in. Qed.
Print Assumptions C37_subString_inside.
Theorem C37_slice_unique : forall s i j t u, is_slice s i j t -> is_slice s i j u -> t = u.
Proof. exact is_slice_fun. Qed.
Print Assumptions C37_slice_unique.
(** String.hpp:833-850 documents IndexOutOfBoundsException; the code returns "". *)
Theorem C37_subString_outside : forall s i j, ~ (0 <= i <= j /\ j <= zlen s) -> subString s i j = Ok [].
Proof. exact subString_out. Qed.
Print Assumptions C37_subString_outside.
Theorem C37_subString_refuted : exists s i j, zlen s < j /\
  forall e, subString s i j <> Throw e.
Proof. exists (T "ab"), 0, 3. split; [reflexivity|]. intros e H. discriminate. Qed.
Print Assumptions C37_subString_refuted.
Example C37_subString_ex : subString (T "banana") 2 4 = Ok (T "na").
Proof. reflexivity. Qed.

(** getChars copies exactly the requested range and nothing else. *)
Theorem C37_getChars_inside : forall m s sb se dst db, small s -> small dst ->
  0 <= sb <= se -> se <= zlen s -> 0 <= db -> db + (se - sb) <= zlen dst ->
  exists dst', getChars m s sb se dst db = Ok dst' /\ zlen dst' = zlen dst /\
    forall k, 0 <= k < zlen dst -> znth dst' k =
      if (db <=? k) && (k <? db + (se - sb)) then znth s (sb + (k - db)) else znth dst k.
Proof. exact getChars_ok. Qed.
Print Assumptions C37_getChars_inside.
Theorem C37_getChars_outside : forall m s sb se dst db,
  is_int db -> is_int sb -> is_int se -> small s -> small dst ->
  ~ (0 <= sb <= se /\ se <= zlen s /\ 0 <= db /\ db + (se - sb) <= zlen dst) ->
  getChars m s sb se dst db = Throw StringIndexOutOfBoundsException \/ int_max < db + (se - sb).
Proof. exact getChars_throws. Qed.
Print Assumptions C37_getChars_outside.
Example C37_getChars_ex : getChars ISO (T "hello") 1 3 (T "xxxxx") 2 = Ok (T "xxelx").
Proof. reflexivity. Qed.

(** ** C38 hash code *)

(** On an object that is not modified, any number of hashCode() calls return
    the polynomial hash of its contents (32-bit wrap-around). *)
Theorem C38_hashCode_unmodified : forall n s,
  exists o, mutate_all HW (new_string s) (repeat CallHash n) = Ok o /\
  exists o', hashCode HW o = Ok (hash31 s, o').
Proof. exact hash_calls. Qed.
Print Assumptions C38_hashCode_unmodified.
(** Modifications before the first hashCode() call are harmless. *)
Lemma hash_first us s o' : Forall not_hash us ->
  mutate_all HW (new_string s) us = Ok o' -> exists o'', hashCode HW o' = Ok (hash31 (original o'), o'').
Proof.
  intros F E. apply mutate_before_hash in E; auto.
  destruct (hashCode_cache_inv o') as (o2 & A & _); [auto|]. eauto.
Qed.
Theorem C38_hashCode_first_call : forall us s o', Forall not_hash us ->
  mutate_all HW (new_string s) us = Ok o' ->
  exists o'', hashCode HW o' = Ok (hash31 (original o'), o'').
Proof. exact hash_first. Qed.
Print Assumptions C38_hashCode_first_call.
Example C38_hashCode_ex : (exists o, hashCode HW (new_string (T "hello")) = Ok (99162322, o))
  /\ (exists o, mutate_all HW (new_string (T "a")) [Append (T "b"); SetAt 0 99] = Ok o /\ original o = T "cb").
Proof. split; eexists; [reflexivity | split; reflexivity]. Qed.
(** But the cache is never invalidated: two equal strings with different hash codes. *)
Theorem C38_hashCode_refuted : exists us s o h o' h2 o2,
  mutate_all HW (new_string s) us = Ok o /\ hashCode HW o = Ok (h, o') /\
  hashCode HW (new_string (original o)) = Ok (h2, o2) /\ h <> h2.
Proof.
  exists [CallHash; Append (T "b")], (T "a"). do 5 eexists.
  split; [reflexivity|]. split; [reflexivity|]. split; [reflexivity|]. discriminate.
Qed.
Print Assumptions C38_hashCode_refuted.
(** In the ISO reading hashing a six character text is already undefined. *)
Theorem C38_hashCode_iso_overflow : hashCode ISO (new_string (T "zzzzzz")) = UB SignedOverflow.
Proof. reflexivity. Qed.
Print Assumptions C38_hashCode_iso_overflow.

(** ** C39 replace and split *)

Theorem C39_replace : forall s t r fuel, t <> [] -> zlen s < Z.of_nat fuel ->
  exists s', replace_seq fuel s t r = Ok s' /\ replaced t r s s'.
Proof. exact replace_seq_ok. Qed.
Print Assumptions C39_replace.
Theorem C39_replaced_unique : forall t r s x y, t <> [] -> replaced t r s x -> replaced t r s y -> x = y.
Proof. exact replaced_fun. Qed.
Print Assumptions C39_replaced_unique.
Example C39_replace_ex : replace_seq 10 (T "banana") (T "an") (T "xyz") = Ok (T "bxyzxyza")
  /\ replace_seq 10 (T "aaa") (T "aa") (T "b") = Ok (T "ba").
Proof. vm_compute; auto. Qed.
(** An empty target makes the loop run forever, whatever the fuel. *)
Theorem C39_replace_empty_diverges_refuted : forall s r fuel, replace_seq fuel s [] r = OutOfFuel.
Proof. exact replace_seq_diverges. Qed.
Print Assumptions C39_replace_empty_diverges_refuted.

Theorem C39_split : forall s t fuel, t <> [] -> zlen s < Z.of_nat fuel ->
  exists l, split fuel s t = Ok l /\ splits t s l.
Proof. exact split_ok. Qed.
Print Assumptions C39_split.
(** Joining the pieces restores the string; no piece contains the separator. *)
Theorem C39_split_join : forall t s l, splits t s l -> joined t l = s.
Proof. exact splits_joined. Qed.
Print Assumptions C39_split_join.
Theorem C39_split_pieces : forall t s l, t <> [] -> splits t s l -> Forall (fun x => forall i, ~ occurs t x i) l.
Proof. exact splits_pieces. Qed.
Print Assumptions C39_split_pieces.
Theorem C39_split_limit : forall s t limit fuel, t <> [] -> zlen s < Z.of_nat fuel ->
  exists l, split_limit fuel s t limit = Ok l /\ joined t l = s /\ (0 < limit -> zlen l <= limit).
Proof. exact split_limit_ok. Qed.
Print Assumptions C39_split_limit.
Example C39_split_ex : split 20 (T "a,b,,c") (T ",") = Ok [T "a"; T "b"; []; T "c"]
  /\ split_limit 20 (T "a,b,,c") (T ",") 2 = Ok [T "a"; T "b,,c"].
Proof. vm_compute; auto. Qed.
Theorem C39_split_empty_diverges_refuted : forall s fuel, split fuel s [] = OutOfFuel.
Proof. exact split_diverges. Qed.
Print Assumptions C39_split_empty_diverges_refuted.

(** replace(char, char): every position is mapped. *)
Lemma replace_char_ok s a b i : znth (replace_char s a b) i =
  match znth s i with Some c => Some (if c =? a then b else c) | None => None end.
Proof.
  unfold replace_char, znth. destruct (i <? 0); auto. rewrite nth_error_map.
  destruct (nth_error s (Z.to_nat i)); reflexivity.
Qed.
Theorem C39_replace_char : forall s a b i, znth (replace_char s a b) i =
  match znth s i with Some c => Some (if c =? a then b else c) | None => None end.
Proof. exact replace_char_ok. Qed.
Print Assumptions C39_replace_char.
Example C39_replace_char_ex : replace_char (T "banana") 97 111 = T "bonono".
Proof. reflexivity. Qed.

(** replaceFirst works only when text follows the match; a match at the very
    end of the string raises an exception. *)
Theorem C39_replaceFirst_partial : forall s t r fuel a b, t <> [] -> small s -> zlen s < Z.of_nat fuel ->
  s = a ++ t ++ b -> (forall i, i < zlen a -> ~ occurs t s i) -> b <> [] ->
  replaceFirst fuel s t r = Ok (a ++ r ++ b).
Proof. exact replaceFirst_ok. Qed.
Print Assumptions C39_replaceFirst_partial.
Theorem C39_replaceFirst_at_end_refuted : forall s t r fuel a, t <> [] -> small s ->
  s = a ++ t -> (forall i, i < zlen a -> ~ occurs t s i) ->
  replaceFirst fuel s t r = Throw StringIndexOutOfBoundsException.
Proof. exact replaceFirst_at_end. Qed.
Print Assumptions C39_replaceFirst_at_end_refuted.
Example C39_replaceFirst_ex : replaceFirst 20 (T "banana") (T "an") (T "X") = Ok (T "bXana")
  /\ replaceFirst 20 (T "ban") (T "an") (T "X") = Throw StringIndexOutOfBoundsException.
Proof. vm_compute; auto. Qed.

(** ** C40 comparison, case, trim *)

Theorem C40_compareTo : forall a b, no_nul a -> no_nul b ->
  (compareTo a b = 0 <-> a = b) /\ (compareTo a b < 0 <-> lex_lt a b) /\ (0 < compareTo a b <-> lex_lt b a).
Proof. exact compareTo_ok. Qed.
Print Assumptions C40_compareTo.
Theorem C40_lex_order : (forall a, ~ lex_lt a a) /\ (forall a b c, lex_lt a b -> lex_lt b c -> lex_lt a c).
Proof. exact (conj lex_lt_irrefl lex_lt_trans). Qed.
Print Assumptions C40_lex_order.
Example C40_compareTo_ex : compareTo (T "abc") (T "abd") = -1 /\ compareTo (T "b") (T "ab") = 1 /\ no_nul (T "abc").
Proof. split; [reflexivity|]. split; [reflexivity|]. repeat constructor; discriminate. Qed.
(** Strings with a NUL inside compare equal although they differ. *)
Theorem C40_compareTo_nul_refuted : exists a b, compareTo a b = 0 /\ equals a b = false.
Proof. exists [97; 0; 98], [97; 0; 99]. vm_compute; auto. Qed.
Print Assumptions C40_compareTo_nul_refuted.
Theorem C40_equals : forall a b, equals a b = true <-> a = b.
Proof. exact equals_ok. Qed.
Print Assumptions C40_equals.
Theorem C40_equalsIgnoreCase : forall a b, no_nul a -> no_nul b ->
  equalsIgnoreCase a b = true <-> map c_tolower a = map c_tolower b.
Proof. exact equalsIgnoreCase_ok. Qed.
Print Assumptions C40_equalsIgnoreCase.
Example C40_equalsIgnoreCase_ex : equalsIgnoreCase (T "HeLLo") (T "hEllO") = true.
Proof. reflexivity. Qed.
(** Case conversion of NUL-free ASCII texts is per character (other bytes go
    through the locale and are not modelled). *)
Lemma toLower_ok s : no_nul s -> toLowerCase_ascii s = map c_tolower s /\ toUpperCase_ascii s = map c_toupper s.
Proof. intros H. unfold toLowerCase_ascii, toUpperCase_ascii. rewrite cstr_id by auto. auto. Qed.
Theorem C40_case_partial : forall s, no_nul s ->
  toLowerCase_ascii s = map c_tolower s /\ toUpperCase_ascii s = map c_toupper s.
Proof. exact toLower_ok. Qed.
Print Assumptions C40_case_partial.
Theorem C40_trim : forall s, exists t, trim s = Ok t /\ trimmed s t.
Proof. exact trim_ok. Qed.
Print Assumptions C40_trim.
Example C40_trim_ex : trim (T "  a b  ") = Ok (T "a b") /\ trim (T "   ") = Ok [].
Proof. vm_compute; auto. Qed.
Theorem C40_regionMatches_inside : forall m s o other p len,
  no_nul s -> no_nul other -> small s -> small other ->
  0 <= len -> 0 <= o -> 0 <= p -> o + len <= zlen s -> p + len <= zlen other ->
  exists t u, is_slice s o (o + len) t /\ is_slice other p (p + len) u /\
    exists r, regionMatches m false s o other p len = Ok r /\ (r = true <-> t = u).
Proof. exact regionMatches_ok. Qed.
Print Assumptions C40_regionMatches_inside.
Example C40_regionMatches_ex : regionMatches ISO false (T "banana") 1 (T "xan") 1 2 = Ok true.
Proof. reflexivity. Qed.
(** Regions outside both strings are reported as matching. *)
Theorem C40_regionMatches_refuted : exists s o other p len, zlen s < o /\ zlen other < p /\
  regionMatches ISO false s o other p len = Ok true.
Proof. exists (T "abc"), 5, (T "xyz"), 7, 2. vm_compute; auto. Qed.
Print Assumptions C40_regionMatches_refuted.
