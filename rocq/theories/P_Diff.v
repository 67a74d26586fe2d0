(** Final theorems about the edit distance, similarity and string diff (properties C01-C03). *)
From Coq Require Import List NArith QArith Bool Arith.
From Verif Require Import Base DiffModel DiffSpec DiffProofs LcsProofs.
Import ListNotations.
Local Open Scope N_scope.

(** C01 *)
Theorem C01_edit_distance_minimal : forall caseless s1 s2,
  N.of_nat (List.length s2) < 2 ^ 31 ->
  min_edits (fold_str caseless s1) (fold_str caseless s2) (N.to_nat (levenshtein caseless s1 s2)).
Proof. exact levenshtein_min_edits. Qed.
Print Assumptions C01_edit_distance_minimal.
Example C01_edit_distance_minimal_ex : levenshtein true (str "Kitten") (str "sitTing") = 3
  /\ levenshtein false (str "Kitten") (str "sitTing") = 4.
Proof. split; reflexivity. Qed.

Theorem C01_edit_distance_zero : forall caseless s1 s2, N.of_nat (List.length s2) < 2 ^ 31 ->
  levenshtein caseless s1 s2 = 0 <-> fold_str caseless s1 = fold_str caseless s2.
Proof. exact levenshtein_zero. Qed.
Print Assumptions C01_edit_distance_zero.
Example C01_edit_distance_zero_ex : levenshtein true (str "aBc") (str "AbC") = 0 /\ levenshtein false (str "aBc") (str "AbC") = 3.
Proof. split; reflexivity. Qed.

Theorem C01_edit_distance_symmetric : forall caseless s1 s2,
  N.of_nat (List.length s1) < 2 ^ 31 -> N.of_nat (List.length s2) < 2 ^ 31 ->
  levenshtein caseless s1 s2 = levenshtein caseless s2 s1.
Proof. exact levenshtein_sym. Qed.
Print Assumptions C01_edit_distance_symmetric.
Example C01_edit_distance_symmetric_ex : levenshtein false (str "name") (str "nam") = 1 /\ levenshtein false (str "nam") (str "name") = 1.
Proof. split; reflexivity. Qed.

Theorem C01_edit_distance_triangle : forall caseless s1 s2 s3,
  N.of_nat (List.length s2) < 2 ^ 31 -> N.of_nat (List.length s3) < 2 ^ 31 ->
  levenshtein caseless s1 s3 <= levenshtein caseless s1 s2 + levenshtein caseless s2 s3.
Proof. exact levenshtein_triangle. Qed.
Print Assumptions C01_edit_distance_triangle.
Example C01_edit_distance_triangle_ex :
  levenshtein false (str "abc") (str "xbcd") = 2 /\ levenshtein false (str "abc") (str "abcd") = 1
  /\ levenshtein false (str "abcd") (str "xbcd") = 1.
Proof. repeat split. Qed.

(** C02 *)
Theorem C02_similarity_at_most_one : forall caseless s1 s2, (estimate caseless s1 s2 <= 1)%Q.
Proof. exact estimate_le_1. Qed.
Print Assumptions C02_similarity_at_most_one.
Example C02_similarity_at_most_one_ex : (estimate false (str "abcd") (str "abxd") == 3 # 4)%Q.
Proof. reflexivity. Qed.

Theorem C02_similarity_one_iff_equal : forall caseless s1 s2, N.of_nat (List.length s2) < 2 ^ 31 ->
  (estimate caseless s1 s2 == 1)%Q <-> fold_str caseless s1 = fold_str caseless s2.
Proof. exact estimate_eq_1. Qed.
Print Assumptions C02_similarity_one_iff_equal.
Example C02_similarity_one_iff_equal_ex : (estimate true (str "Ab") (str "aB") == 1)%Q /\ (estimate false (str "Ab") (str "aB") == 0)%Q.
Proof. split; reflexivity. Qed.

Theorem C02_similarity_at_least_minus_one : forall caseless s1 s2, N.of_nat (List.length s2) < 2 ^ 31 ->
  (-(1) <= estimate caseless s1 s2)%Q.
Proof. exact estimate_ge_m1. Qed.
Print Assumptions C02_similarity_at_least_minus_one.

(** the score is one minus twice the least number of edits per character *)
Theorem C02_similarity_value : forall caseless s1 s2 d, N.of_nat (List.length s2) < 2 ^ 31 ->
  min_edits (fold_str caseless s1) (fold_str caseless s2) d ->
  let n := inject_Z (Z.of_nat (List.length s1 + List.length s2)) in
  (n * estimate caseless s1 s2 == n - 2 * inject_Z (Z.of_nat d))%Q.
Proof. exact estimate_value. Qed.
Print Assumptions C02_similarity_value.
Example C02_similarity_value_ex : levenshtein true (str "Kitten") (str "sitTing") = 3 /\ (13 * estimate true (str "Kitten") (str "sitTing") == 13 - 2 * 3)%Q.
Proof. split; reflexivity. Qed.

(** The source comment promises a score between 0 and 1; it can be as low as -1. *)
Theorem C02_similarity_nonnegative_refuted : exists s1 s2, (estimate false s1 s2 == -(1))%Q.
Proof. exists [], (str "a"). reflexivity. Qed.
Print Assumptions C02_similarity_nonnegative_refuted.

(** C03: l1 / l2 are the marks deciding which characters are shown as common. *)
Theorem C03_diff_marks_longest_common_subsequence : forall caseless s1 s2,
  N.of_nat (Nat.min (List.length s1) (List.length s2)) < 2 ^ 24 ->
  exists l1 l2, lcs_strings caseless s1 s2 = Some (l1, l2) /\
    List.length l1 = List.length s1 /\ List.length l2 = List.length s2 /\
    Forall2 (fun a b => fold_str caseless a = fold_str caseless b) (select l1 s1) (select l2 s2) /\
    (forall u v, subseq u s1 -> subseq v s2 ->
       Forall2 (fun a b => fold_str caseless a = fold_str caseless b) u v ->
       (List.length u <= List.length (select l1 s1))%nat).
Proof. exact lcs_strings_correct. Qed.
Print Assumptions C03_diff_marks_longest_common_subsequence.
Example C03_diff_marks_longest_common_subsequence_ex :
  lcs_strings true (List.map (fun c => [c]) (str "aXbcy")) (List.map (fun c => [c]) (str "zABxC")) =
  Some ([true; false; true; true; false], [false; true; true; false; true]).
Proof. reflexivity. Qed.
