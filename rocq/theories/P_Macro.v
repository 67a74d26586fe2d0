(** C83: the macros that work on lists of values. *)
From Coq Require Import List NArith Bool Arith.
From Verif Require Import Base MacroModel MacroSpec MacroProofs13 MacroProofs14 MacroProofs15 MacroProofs16 MacroSpec2 MacroProofs17 MacroProofs18.
Import ListNotations.
Local Open Scope N_scope.

(** H2PP_FOREACH becomes one call for each value, in order and numbered from 0, with the separator between them; nothing for no values. *)
Theorem C83_foreach : forall sep between m a vs, separates sep between -> plain m -> argument a -> Forall value vs -> (length vs <= 33)%nat ->
  becomes (macro_use (str "H2PP_FOREACH") (sep :: m :: a :: vs)) (joined between (map (fun iv => applied m [a; [numeral (fst iv)]; snd iv]) (numbered vs))) /\
  (vs = [] -> becomes (macro_use (str "H2PP_FOREACH") [sep; m; a; []]) []).
Proof. exact foreach_33. Qed.
Print Assumptions C83_foreach.

(** Up to 63 values become calls; the number of a value after the 33rd is the name of a macro that does not exist. *)
Theorem C83_foreach_many : exists shown : nat -> tok, (forall i, (i <= 32)%nat -> shown i = numeral i) /\ (forall i, (32 < i)%nat -> exists n, shown i = TId n false) /\
  forall sep between m a vs, separates sep between -> plain m -> argument a -> Forall value vs -> (length vs <= 63)%nat ->
  becomes (macro_use (str "H2PP_FOREACH") (sep :: m :: a :: vs)) (joined between (map (fun iv => applied m [a; [shown (fst iv)]; snd iv]) (numbered vs))).
Proof. exact foreach_many. Qed.
Print Assumptions C83_foreach_many.

(** With 34 values the numbers are not all numbers. *)
Theorem C83_limit_refuted : exists vs, Forall value vs /\ length vs = 34%nat /\
  ~ becomes (macro_use (str "H2PP_FOREACH") ([] :: nm (str "M") :: [] :: vs)) (joined [] (map (fun iv => applied (nm (str "M")) [[]; [numeral (fst iv)]; snd iv]) (numbered vs))).
Proof. exact limit_34. Qed.
Print Assumptions C83_limit_refuted.

(** H2PP_FULLMESH becomes one call for each pair of values of two lists, row by row. *)
Theorem C83_fullmesh : forall sep between m a xs ys, separates sep between -> plain m -> argument a -> Forall value xs -> Forall value ys -> (length xs <= 33)%nat -> (length ys <= 33)%nat ->
  becomes (macro_use (str "H2PP_FULLMESH") [sep; m; a; group (listed xs); group (listed ys)])
    (joined between (map (fun p => applied m [a; [numeral (fst (fst p))]; [numeral (fst (snd p))]; snd (fst p); snd (snd p)]) (pairs xs ys))).
Proof. exact fullmesh_33. Qed.
Print Assumptions C83_fullmesh.

(** With one list, the pairs are those of the list with itself. *)
Theorem C83_square : forall sep between m a xs, separates sep between -> plain m -> argument a -> Forall value xs -> (length xs <= 33)%nat ->
  becomes (macro_use (str "H2PP_FULLMESH") [sep; m; a; group (listed xs)])
    (joined between (map (fun p => applied m [a; [numeral (fst (fst p))]; [numeral (fst (snd p))]; snd (fst p); snd (snd p)]) (pairs xs xs))).
Proof. exact square_33. Qed.
Print Assumptions C83_square.

(** H2PP_REPEAT becomes as many calls as are asked for, numbered from 0. *)
Theorem C83_repeat : forall sep between m a n, separates sep between -> plain m -> argument a -> (n <= 32)%nat ->
  becomes (macro_use (str "H2PP_REPEAT") [sep; m; a; [numeral n]]) (joined between (map (fun i => applied m [a; [numeral i]]) (seq 0 n))).
Proof. exact repeat_becomes. Qed.
Print Assumptions C83_repeat.

(** CASES and CASES_T declare one case for each value, which calls the test with it, or with it as type. *)
Theorem C83_cases : forall test prefix vs, value test -> value prefix -> Forall value vs -> (length vs <= 33)%nat ->
  becomes (macro_use (str "__H2CASES1") [test; prefix; group (listed vs)])
    (template (str "template <typename T> static void") test (str "(T x)") ++ punct 59 ::
     concat (map (fun iv => case_of test prefix (dotted (fst iv)) [snd iv] false) (numbered vs)) ++ punct 59 :: template (str "template <typename T> static void") test (str "(T x)")) /\
  becomes (macro_use (str "__H2CASES_T1") [test; prefix; group (listed vs)])
    (template (str "template <typename x> static void") test (str "()") ++ punct 59 ::
     concat (map (fun iv => case_of test prefix (dotted (fst iv)) [snd iv] true) (numbered vs)) ++ punct 59 :: template (str "template <typename x> static void") test (str "()")).
Proof. exact cases_33. Qed.
Print Assumptions C83_cases.

(** CASESS and CASESS_T declare one case for each pair. *)
Theorem C83_casess : forall test prefix xs ys, value test -> value prefix -> Forall value xs -> Forall value ys -> (length xs <= 33)%nat -> (length ys <= 33)%nat ->
  becomes (macro_use (str "__H2CASESS1") [test; prefix; group (listed xs); group (listed ys)])
    (template (str "template <typename Tx, typename Ty> static void") test (str "(Tx x, Ty y)") ++ punct 59 ::
     concat (map (fun p => case_of test prefix (dotted (fst (fst p)) ++ dotted (fst (snd p))) [snd (fst p); snd (snd p)] false) (pairs xs ys)) ++ punct 59 :: template (str "template <typename Tx, typename Ty> static void") test (str "(Tx x, Ty y)")) /\
  becomes (macro_use (str "__H2CASESS_T1") [test; prefix; group (listed xs); group (listed ys)])
    (template (str "template <typename x, typename y> static void") test (str "()") ++ punct 59 ::
     concat (map (fun p => case_of test prefix (dotted (fst (fst p)) ++ dotted (fst (snd p))) [snd (fst p); snd (snd p)] true) (pairs xs ys)) ++ punct 59 :: template (str "template <typename x, typename y> static void") test (str "()")).
Proof. exact casess_33. Qed.
Print Assumptions C83_casess.

Theorem C83_casess_square : forall test prefix xs, value test -> value prefix -> Forall value xs -> (length xs <= 33)%nat ->
  becomes (macro_use (str "__H2CASESS1") [test; prefix; group (listed xs)])
    (template (str "template <typename Tx, typename Ty> static void") test (str "(Tx x, Ty y)") ++ punct 59 ::
     concat (map (fun p => case_of test prefix (dotted (fst (fst p)) ++ dotted (fst (snd p))) [snd (fst p); snd (snd p)] false) (pairs xs xs)) ++ punct 59 :: template (str "template <typename Tx, typename Ty> static void") test (str "(Tx x, Ty y)")) /\
  becomes (macro_use (str "__H2CASESS_T1") [test; prefix; group (listed xs)])
    (template (str "template <typename x, typename y> static void") test (str "()") ++ punct 59 ::
     concat (map (fun p => case_of test prefix (dotted (fst (fst p)) ++ dotted (fst (snd p))) [snd (fst p); snd (snd p)] true) (pairs xs xs)) ++ punct 59 :: template (str "template <typename x, typename y> static void") test (str "()")).
Proof. exact casess_square_33. Qed.
Print Assumptions C83_casess_square.

(** H2Foreach and H2Fullmesh call for each value, and for each pair. *)
Theorem C83_each : forall f vs, value f -> Forall value vs -> (length vs <= 63)%nat -> becomes (macro_use (str "H2Foreach") [f; group (listed vs)]) (concat (map (fun v => applied f [v]) vs)).
Proof. exact each_63. Qed.
Print Assumptions C83_each.

Theorem C83_each_pair : forall f xs ys, value f -> Forall value xs -> Forall value ys -> (length xs <= 63)%nat -> (length ys <= 63)%nat ->
  becomes (macro_use (str "H2Fullmesh") [f; group (listed xs); group (listed ys)]) (concat (map (fun p => applied f [fst p; snd p]) (list_prod xs ys))) /\
  becomes (macro_use (str "H2Fullmesh") [f; group (listed xs)]) (concat (map (fun p => applied f [fst p; snd p]) (list_prod xs xs))).
Proof. exact eachs_63. Qed.
Print Assumptions C83_each_pair.


(** The number of values, whether there are any, the first, the others, the last. *)
Theorem C83_count : forall vs, Forall value vs -> (length vs <= 63)%nat -> becomes (macro_use (str "H2PP_NARG") vs) [numeral (length vs)].
Proof. exact narg_becomes. Qed.
Print Assumptions C83_count.

Theorem C83_empty : forall vs, Forall value vs -> (length vs <= 63)%nat -> becomes (macro_use (str "H2PP_IS_EMPTY") vs) [numeral (match vs with [] => 1 | _ => 0 end)].
Proof. exact is_empty_becomes. Qed.
Print Assumptions C83_empty.

Theorem C83_head : forall vs, Forall value vs -> (length vs <= 63)%nat -> becomes (macro_use (str "H2PP_HEAD") vs) (hd [] vs).
Proof. exact head_becomes. Qed.
Print Assumptions C83_head.

Theorem C83_tail : forall vs, Forall value vs -> (length vs <= 63)%nat -> becomes (macro_use (str "H2PP_TAIL") vs) (listed (tl vs)).
Proof. exact tail_becomes. Qed.
Print Assumptions C83_tail.

Theorem C83_last : forall vs, Forall value vs -> (length vs <= 63)%nat -> becomes (macro_use (str "H2PP_LAST") vs) (last vs []).
Proof. exact last_becomes. Qed.
Print Assumptions C83_last.

(** H2_An of a list becomes its foremost value, inside up to 256 pairs of parentheses, and 0 if there is none. *)
Theorem C83_an : forall d vs v, foremost d vs v -> (d <= 256)%nat -> becomes (macro_use (str "H2_An") vs) v.
Proof. exact an_becomes. Qed.
Print Assumptions C83_an.

(** H2_XAn and H2_YAn become the foremost value of the first and of the last of the list. *)
Theorem C83_xan : forall d vs v, countable vs -> foremost d (firstn 1 vs) v -> (d <= 256)%nat -> becomes (macro_use (str "H2_XAn") vs) v.
Proof. exact xan_becomes. Qed.
Print Assumptions C83_xan.
Theorem C83_yan : forall d vs v, countable vs -> foremost d (firstn 1 (rev vs)) v -> (d <= 256)%nat -> becomes (macro_use (str "H2_YAn") vs) v.
Proof. exact yan_becomes. Qed.
Print Assumptions C83_yan.

(** H2PP_REMOVE_PARENTHESES_IF takes parentheses away from a text that is in parentheses, and only then. *)
Theorem C83_parentheses : forall s between, separates s between -> becomes (macro_use (str "H2PP_REMOVE_PARENTHESES_IF") [s]) between.
Proof. exact unparen_becomes. Qed.
Print Assumptions C83_parentheses.

(** It does not leave a list without parentheses alone. *)
Theorem C83_bare_refuted : exists vs, Forall value vs /\ ~ becomes (macro_use (str "H2PP_REMOVE_PARENTHESES_IF") vs) (listed vs).
Proof. exact bare_ex. Qed.
Print Assumptions C83_bare_refuted.

Example C83_foreach_case : becomes (words (str "H2PP_FOREACH((,), M, (p,q), x, (p,q), (int)3)")) (words (str "M((p,q), 0, x), M((p,q), 1, (p,q)), M((p,q), 2, (int)3)")).
Proof. computed (proj1 (C83_foreach _ _ (nm (str "M")) (words (str "(p,q)")) three comma_separates m_plain (or_intror pack_value) three_values ltac:(cbn; repeat constructor))). Qed.
Example C83_foreach_many_case : Forall value (repeat (nm (str "x")) 40) /\ (length (repeat (nm (str "x")) 40) <= 63)%nat /\ argument (nm (str "x")) /\ separates [] [].
Proof. split; [apply Forall_forall; intros v I; apply repeat_spec in I; subst v; exact x_value|]. split; [apply Nat.leb_le; reflexivity|]. split; [right; exact x_value|constructor]. Qed.
Example C83_fullmesh_case : becomes (words (str "H2PP_FULLMESH(, M, , (x, (p,q), (int)3), (x))")) (words (str "M(, 0, 0, x, x) M(, 1, 0, (p,q), x) M(, 2, 0, (int)3, x)")).
Proof. computed (C83_fullmesh [] [] (nm (str "M")) [] three [nm (str "x")] sep_none m_plain (or_introl eq_refl) three_values ltac:(constructor; [exact x_value|constructor]) ltac:(cbn; repeat constructor) ltac:(cbn; repeat constructor)). Qed.
Example C83_square_case : becomes (words (str "H2PP_FULLMESH(+, M, , (x, x))")) (words (str "M(, 0, 0, x, x) + M(, 0, 1, x, x) + M(, 1, 0, x, x) + M(, 1, 1, x, x)")).
Proof.
  assert (P : plain (words (str "+"))) by (split; [split; [apply piece_word; [exact Logic.I|constructor]|discriminate]|discriminate]).
  computed (C83_square _ _ (nm (str "M")) [] [nm (str "x"); nm (str "x")] (sep_plain _ P) m_plain (or_introl eq_refl) ltac:(constructor; [exact x_value|constructor; [exact x_value|constructor]]) ltac:(cbn; repeat constructor)).
Qed.
Example C83_repeat_case : becomes (words (str "H2PP_REPEAT((,), M, x, 3)")) (words (str "M(x, 0), M(x, 1), M(x, 2)")).
Proof. computed (C83_repeat _ _ (nm (str "M")) (nm (str "x")) 3 comma_separates m_plain (or_intror x_value) ltac:(cbn; repeat constructor)). Qed.
Example C83_cases_case : becomes (words (str "__H2CASES1(case_test_C1, x, (x, (int)3))"))
  (words (str "template <typename T> static void case_test_C1(T x); H2CASE(x 0 . x) { case_test_C1(x); } H2CASE(x 1 . (int)3) { case_test_C1((int)3); }; template <typename T> static void case_test_C1(T x)")).
Proof. computed (proj1 (C83_cases (nm (str "case_test_C1")) (nm (str "x")) [nm (str "x"); words (str "(int)3")] test_value x_value ltac:(constructor; [exact x_value|constructor; [exact cast_value|constructor]]) ltac:(cbn; repeat constructor))). Qed.
Example C83_casess_case : becomes (words (str "__H2CASESS_T1(case_test_C1, x, (x), (x))"))
  (words (str "template <typename x, typename y> static void case_test_C1(); H2CASE(x 0 . 0 . x, x) { case_test_C1<x, x>(); }; template <typename x, typename y> static void case_test_C1()")).
Proof. computed (proj2 (C83_casess (nm (str "case_test_C1")) (nm (str "x")) [nm (str "x")] [nm (str "x")] test_value x_value ltac:(constructor; [exact x_value|constructor]) ltac:(constructor; [exact x_value|constructor]) ltac:(cbn; repeat constructor) ltac:(cbn; repeat constructor))). Qed.
Example C83_casess_square_case : becomes (words (str "__H2CASESS1(case_test_C1, x, (x))"))
  (words (str "template <typename Tx, typename Ty> static void case_test_C1(Tx x, Ty y); H2CASE(x 0 . 0 . x, x) { case_test_C1(x, x); }; template <typename Tx, typename Ty> static void case_test_C1(Tx x, Ty y)")).
Proof. computed (proj1 (C83_casess_square (nm (str "case_test_C1")) (nm (str "x")) [nm (str "x")] test_value x_value ltac:(constructor; [exact x_value|constructor]) ltac:(cbn; repeat constructor))). Qed.
Example C83_each_case : becomes (words (str "H2Foreach(M, (x, (p,q), (int)3))")) (words (str "M(x) M((p,q)) M((int)3)")).
Proof. computed (C83_each (nm (str "M")) three (proj1 m_plain) three_values ltac:(cbn; repeat constructor)). Qed.
Example C83_each_pair_case : becomes (words (str "H2Fullmesh(M, (x, (p,q), (int)3), (x))")) (words (str "M(x, x) M((p,q), x) M((int)3, x)")).
Proof. computed (proj1 (C83_each_pair (nm (str "M")) three [nm (str "x")] (proj1 m_plain) three_values ltac:(constructor; [exact x_value|constructor]) ltac:(cbn; repeat constructor) ltac:(cbn; repeat constructor))). Qed.
Example C83_count_case : preprocess 40 (words (str "H2PP_NARG(x, (p,q), (int)3)")) = Some (words (str "3")) /\ becomes (words (str "H2PP_NARG(x, (p,q), (int)3)")) (words (str "3")).
Proof. split; [vm_compute; reflexivity|]. exact (C83_count three three_values ltac:(cbn; repeat constructor)). Qed.
Example C83_empty_case : becomes (words (str "H2PP_IS_EMPTY((p,q))")) (words (str "0")) /\ becomes (words (str "H2PP_IS_EMPTY()")) (words (str "1")).
Proof. split; [exact (C83_empty [words (str "(p,q)")] ltac:(constructor; [exact pack_value|constructor]) ltac:(cbn; repeat constructor))|exact (C83_empty [] ltac:(constructor) ltac:(cbn; repeat constructor))]. Qed.
Example C83_head_case : becomes (words (str "H2PP_HEAD(x, (p,q), (int)3)")) (words (str "x")).
Proof. computed (C83_head three three_values ltac:(cbn; repeat constructor)). Qed.
Example C83_tail_case : becomes (words (str "H2PP_TAIL(x, (p,q), (int)3)")) (words (str "(p,q), (int)3")).
Proof. computed (C83_tail three three_values ltac:(cbn; repeat constructor)). Qed.
Example C83_last_case : becomes (words (str "H2PP_LAST(x, (p,q), (int)3)")) (words (str "(int)3")).
Proof. computed (C83_last three three_values ltac:(cbn; repeat constructor)). Qed.
Example C83_parentheses_case : becomes (words (str "H2PP_REMOVE_PARENTHESES_IF((,))")) (words (str ",")).
Proof. computed (C83_parentheses _ _ comma_separates). Qed.
Example C83_an_case : becomes (words (str "H2_An(((p,q),(int)3),x)")) (words (str "p")) /\ becomes (words (str "H2_An((int)3)")) (words (str "(int)3")) /\ becomes (words (str "H2_An()")) (words (str "0")).
Proof. split; [computed (C83_an _ _ _ packed_foremost ltac:(repeat constructor))|]. split; [computed (C83_an _ _ _ cast_foremost ltac:(repeat constructor))|computed (C83_an _ _ _ fore_none ltac:(repeat constructor))]. Qed.
Example C83_xan_case : becomes (words (str "H2_XAn((p,q),(int)3)")) (words (str "p")).
Proof. computed (C83_xan 1 packs _ packs_countable (pack_foremost [] pack_countable) ltac:(repeat constructor)). Qed.
Example C83_yan_case : becomes (words (str "H2_YAn((p,q),(int)3)")) (words (str "(int)3")).
Proof. computed (C83_yan 0 packs _ packs_countable cast_foremost ltac:(repeat constructor)). Qed.
