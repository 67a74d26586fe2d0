(** C67: text matchers. *)
From Coq Require Import List NArith Bool Arith Lia.
From Verif Require Import Base StrModel TextModel TextSpec GlobSpec TextProofs.
Import ListNotations.
Local Open Scope N_scope.

(** C67: Se and Eq accept exactly the same text, Substr the texts in which it occurs, StartsWith those that begin with it, EndsWith those
    that end with it - upper and lower case letters alike with the operator ~ - and the operator ! turns the verdict over *)
Theorem C67_equal : forall neg ci e a, text_match neg ci false (Se e) a = true <-> says neg (same_text ci a e).
Proof. exact se_ok. Qed.
Print Assumptions C67_equal.
Theorem C67_eq : forall neg ci e a, eq_text neg ci false e a = true <-> says neg (same_text ci a e).
Proof. exact eq_ok. Qed.
Print Assumptions C67_eq.
Theorem C67_substr : forall neg ci e a, text_match neg ci false (Substr e) a = true <-> says neg (occurs ci e a).
Proof. exact substr_ok. Qed.
Print Assumptions C67_substr.
Theorem C67_starts : forall neg ci e a, text_match neg ci false (StartsWith e) a = true <-> says neg (begins_with ci e a).
Proof. exact starts_ok. Qed.
Print Assumptions C67_starts.
Theorem C67_ends : forall neg ci e a, text_match neg ci false (EndsWith e) a = true <-> says neg (ends_with ci e a).
Proof. exact ends_ok. Qed.
Print Assumptions C67_ends.
(** We accepts the texts of the pattern (C04) *)
Theorem C67_wildcard : forall neg ci e a, ~ In 0 e -> ~ In 0 a -> (text_match neg ci false (We e) a = true <-> says neg (glob ci e a)).
Proof. exact we_ok. Qed.
Print Assumptions C67_wildcard.
Example C67_example : text_match false true false (Substr (str "LLO w")) (str "Hello World") = true /\ occurs true (str "LLO w") (str "Hello World") /\
  text_match false false false (Substr (str "LLO w")) (str "Hello World") = false /\ text_match true false false (EndsWith (str "ab")) (str "abab") = false /\
  text_match false false false (EndsWith (str "aa")) (str "aaa") = true /\ text_match false false false (StartsWith (str "b")) (str "ab") = false /\
  text_match false true false (We (str "h*D")) (str "Hello World") = true.
Proof. split; [vm_compute; reflexivity|]. split; [apply contains_occurs; vm_compute; reflexivity|]. vm_compute. auto. Qed.

(** with the operator * white space is squashed: without quotation marks Se and Eq compare the words *)
Theorem C67_squash_equal : forall neg ci e a we wa, unquoted a -> unquoted e -> words a wa -> words e we ->
  (text_match neg ci true (Se e) a = true <-> says neg (Forall2 (same_text ci) wa we)).
Proof. exact se_words. Qed.
Print Assumptions C67_squash_equal.
Theorem C67_squash_eq : forall neg ci e a we wa, unquoted a -> unquoted e -> words a wa -> words e we ->
  (eq_text neg ci true e a = true <-> says neg (Forall2 (same_text ci) wa we)).
Proof. exact eq_words. Qed.
Print Assumptions C67_squash_eq.
(** the others look at the words of the text with single spaces between them *)
Theorem C67_squash_find : forall neg ci e a wa, unquoted a -> words a wa ->
  (text_match neg ci true (Substr e) a = true <-> says neg (occurs ci e (joined wa))) /\
  (text_match neg ci true (StartsWith e) a = true <-> says neg (begins_with ci e (joined wa))) /\
  (text_match neg ci true (EndsWith e) a = true <-> says neg (ends_with ci e (joined wa))).
Proof. exact find_words. Qed.
Print Assumptions C67_squash_find.
(** every text has words *)
Theorem C67_words : forall s, exists ws, words s ws.
Proof. exact words_total. Qed.
Print Assumptions C67_words.
Example C67_squash_example : let a := [32; 97; 98; 9; 10; 99; 32] in let e := str "Ab  c" in
  words a [str "ab"; str "c"] /\ words e [str "Ab"; str "c"] /\ unquoted a /\ unquoted e /\ text_match false true true (Se e) a = true /\ text_match false false true (Se e) a = false.
Proof.
  assert (B : forall c, c = 97 \/ c = 98 \/ c = 99 \/ c = 65 -> ~ is_white c) by (unfold is_white; intros; lia).
  cbn zeta. split; [|split; [|split; [|split; [|vm_compute; auto]]]].
  - refine (W_more [32] [97; 98] 9 [10; 99; 32] [[99]] _ _ _ _ _); try discriminate; try (repeat constructor; unfold is_white; auto; fail).
    + constructor; [apply B; auto|constructor; [apply B; auto|constructor]].
    + refine (W_more [10] [99] 32 [] [] _ _ _ _ _); try discriminate; try (repeat constructor; unfold is_white; auto; fail). constructor; [apply B; auto|constructor].
  - refine (W_more [] [65; 98] 32 [32; 99] [[99]] _ _ _ _ _); try discriminate; try (repeat constructor; unfold is_white; auto; fail).
    + constructor; [apply B; auto|constructor; [apply B; auto|constructor]].
    + refine (W_last [32] [99] _ _ _); try discriminate; try (repeat constructor; unfold is_white; auto; fail). constructor; [apply B; auto|constructor].
  - intros c H. cbn in H. lia.
  - intros c H. cbn in H. lia.
Qed.
(** the operator * does not squash the text looked for: with a tab or newline in it, nothing ever matches *)
Theorem C67_squash_pattern : forall neg ci e a d, ~ In 0 a -> d = 9 \/ d = 10 -> In d e ->
  text_match neg ci true (Substr e) a = neg /\ text_match neg ci true (StartsWith e) a = neg /\ text_match neg ci true (EndsWith e) a = neg.
Proof. exact pattern_white. Qed.
Print Assumptions C67_squash_pattern.
Theorem C67_squash_pattern_refuted : exists e, text_match false false true (Substr e) e = false /\ text_match false false false (Substr e) e = true.
Proof. exists (str "a  b"). vm_compute. auto. Qed.
Print Assumptions C67_squash_pattern_refuted.

(** char pointers: texts as above; a null pointer expected accepts exactly the null pointer *)
Theorem C67_pointers : forall neg ci e a, ~ In 0 e -> ~ In 0 a -> (eq_pointer neg ci false (Some e) (Some a) = true <-> says neg (same_text ci a e)).
Proof. exact pointer_texts. Qed.
Print Assumptions C67_pointers.
Theorem C67_pointer_string : forall neg ci e a, ~ In 0 e -> (eq_pointer_string neg ci false (Some e) a = true <-> says neg (same_text ci a e)).
Proof. exact pointer_string. Qed.
Print Assumptions C67_pointer_string.
Theorem C67_null_expected : forall neg ci sq a, eq_pointer neg ci sq None a = true <-> says neg (a = None).
Proof. exact null_expected. Qed.
Print Assumptions C67_null_expected.
(** no std::string is a null pointer *)
Theorem C67_null_string : forall neg ci sq a, eq_pointer_string neg ci sq None a = true <-> says neg False.
Proof. exact null_expected_string. Qed.
Print Assumptions C67_null_string.
Example C67_null_string_example : eq_pointer_string false false false None (str "(null)") = false /\ eq_pointer_string true false false None [] = true.
Proof. split; reflexivity. Qed.
(** a null pointer looked at counts as the text "(null)" *)
Theorem C67_null_actual : forall neg ci e, ~ In 0 e -> (eq_pointer neg ci false (Some e) None = true <-> says neg (same_text ci (str "(null)") e)).
Proof. exact null_actual. Qed.
Print Assumptions C67_null_actual.
Theorem C67_null_refuted : exists e, eq_pointer false false false (Some e) None = true /\ eq_pointer false false false None (Some e) = false.
Proof. exists (str "(null)"). vm_compute. auto. Qed.
Print Assumptions C67_null_refuted.
Example C67_pointer_example : eq_pointer false true false (Some (str "ABC")) (Some (str "abc")) = true /\ eq_pointer true false false (Some (str "x")) None = true /\ eq_pointer false false false None None = true.
Proof. vm_compute. auto. Qed.
