(** C73: a failed comparison is reported with the two sides that were compared. *)
From Coq Require Import List NArith Bool Arith.
From Verif Require Import Base StrModel FilterModel SplitModel SplitSpec SplitProofs.
Import ListNotations.
Local Open Scope N_scope.

(** two character operators: split at the first one outside string literals, sides without blanks around *)
Theorem C73_two : forall s op e l r,
  two_op op -> occurs op s l r -> (forall l' r', occurs op s l' r' -> (length l <= length l')%nat) ->
  trimmed_end l (fst (failing_expressions op e s)) /\ trimmed_begin r (snd (failing_expressions op e s)).
Proof. exact split_two. Qed.
Print Assumptions C73_two.
Example C73_two_ex : failing_expressions (str "==") [] (str "f(""a==b"")  == 3 ") = (str "f(""a==b"")", str "3 ").
Proof. reflexivity. Qed.
Theorem C73_two_none : forall s op e, two_op op -> (forall l r, ~ occurs op s l r) -> failing_expressions op e s = (e, s).
Proof. exact split_two_none. Qed.
Print Assumptions C73_two_none.
Example C73_two_none_ex : failing_expressions (str "==") (str "e") (str "f(""a==b"")") = (str "e", str "f(""a==b"")").
Proof. reflexivity. Qed.

(** an expected and an actual value given as two arguments are reported as they were written, whatever they contain *)
Theorem C73_two_arguments : forall e a, failing_expressions (str ",") e a = (e, a).
Proof. exact split_comma. Qed.
Print Assumptions C73_two_arguments.
Example C73_two_arguments_ex : failing_expressions (str ",") (str "x == 1") (str "f(1, 2) > 3") = (str "x == 1", str "f(1, 2) > 3").
Proof. reflexivity. Qed.

(** greater: at the first one that closes no less sign; less: at the last one that no greater sign closes *)
Theorem C73_greater : forall s e l r,
  free_gt s l r -> (forall l' r', free_gt s l' r' -> (length l <= length l')%nat) ->
  trimmed_end l (fst (failing_expressions [62] e s)) /\ trimmed_begin r (snd (failing_expressions [62] e s)).
Proof. exact split_gt. Qed.
Print Assumptions C73_greater.
Example C73_greater_ex : failing_expressions [62] [] (str "f<A>(x) > y > z") = (str "f<A>(x)", str "y > z").
Proof. reflexivity. Qed.
Theorem C73_less : forall s e l r,
  free_lt s l r -> (forall l' r', free_lt s l' r' -> (length l' <= length l)%nat) ->
  trimmed_end l (fst (failing_expressions [60] e s)) /\ trimmed_begin r (snd (failing_expressions [60] e s)).
Proof. exact split_lt. Qed.
Print Assumptions C73_less.
Example C73_less_ex : failing_expressions [60] [] (str "x < y < f<A>(z)") = (str "x < y", str "f<A>(z)").
Proof. reflexivity. Qed.
Theorem C73_one_none : forall s e,
  ((forall l r, ~ free_gt s l r) -> failing_expressions [62] e s = (e, s)) /\
  ((forall l r, ~ free_lt s l r) -> failing_expressions [60] e s = (e, s)).
Proof. exact (fun s e => conj (split_gt_none s e) (split_lt_none s e)). Qed.
Print Assumptions C73_one_none.
Example C73_one_none_ex : failing_expressions [62] (str "e") (str "f<A>(x)") = (str "e", str "f<A>(x)") /\ failing_expressions [60] (str "e") (str "f<A>(x)") = (str "e", str "f<A>(x)").
Proof. split; reflexivity. Qed.

(** in particular, template arguments on the left of a greater sign, on the right of a less sign do not matter *)
Theorem C73_template : forall e l r,
  (paired l -> trimmed_end l (fst (failing_expressions [62] e (l ++ [62] ++ r))) /\
               trimmed_begin r (snd (failing_expressions [62] e (l ++ [62] ++ r)))) /\
  (paired r -> trimmed_end l (fst (failing_expressions [60] e (l ++ [60] ++ r))) /\
               trimmed_begin r (snd (failing_expressions [60] e (l ++ [60] ++ r)))).
Proof. exact (fun e l r => conj (paired_gt e l r) (paired_lt e l r)). Qed.
Print Assumptions C73_template.
Example C73_template_ex :
  paired (str "g<A<1>,B>("">"") ") /\
  failing_expressions [62] [] (str "g<A<1>,B>("">"") > h<C>(2)") = (str "g<A<1>,B>("">"")", str "h<C>(2)") /\
  failing_expressions [60] [] (str "g<A<1>,B>("">"") < h<C>(2)") = (str "g<A<1>,B>("">"")", str "h<C>(2)").
Proof.
  split; [|split; reflexivity].
  change (str "g<A<1>,B>("">"") ") with (103 :: 60 :: (65 :: 60 :: [49] ++ 62 :: [44; 66]) ++ 62 :: 40 :: 34 :: [62] ++ 34 :: [41; 32]).
  apply p_char; try discriminate. apply p_angle.
  - apply p_char; try discriminate. apply p_angle; repeat (apply p_char; try discriminate); apply p_nil.
  - apply p_char; try discriminate. apply p_literal; [intros [H|[]]; discriminate|]. repeat (apply p_char; try discriminate); apply p_nil.
Qed.

(** refuted: an arrow on the left of a greater sign is taken for the operator; on the right of a less sign it hides the operator;
    so does a shift; a quotation mark in a character literal hides what follows *)
Theorem C73_arrow_refuted : exists l r,
  failing_expressions [62] [] (l ++ str " > " ++ r) <> (l, r) /\ failing_expressions [60] [] (r ++ str " < " ++ l) = ([], r ++ str " < " ++ l).
Proof. exists (str "p->n"), (str "3"). split; [vm_compute; discriminate|reflexivity]. Qed.
Print Assumptions C73_arrow_refuted.
Theorem C73_shift_refuted : exists l r, failing_expressions [62] [] (l ++ str " > " ++ r) = (str "x", str "> 2 > 3") /\ l = str "x >> 2" /\ r = str "3".
Proof. exists (str "x >> 2"), (str "3"). repeat split. Qed.
Print Assumptions C73_shift_refuted.
Theorem C73_quote_refuted : exists l r, failing_expressions (str "==") [] (l ++ str " == " ++ r) = ([], l ++ str " == " ++ r) /\ l = [39; 34; 39] /\ r = str "c".
Proof. exists [39; 34; 39], (str "c"). repeat split. Qed.
Print Assumptions C73_quote_refuted.
