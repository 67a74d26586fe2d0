(** What the failures of AllOf, NoneOf and ListOf tell. *)
From Coq Require Import List ZArith Bool.
From Verif Require Import FailModel FailSpec MatcherModel.
Import ListNotations.
Local Open Scope Z_scope.

(** failures told, the first of them with a number *)
Definition with_number (i : Z) (l : list (Z * Z)) : list (Z * Z) := match l with (x, _) :: r => (x, i) :: r | [] => [] end.
(** failures of the parts, each part's under its place, counted from [i] *)
Fixpoint by_place (i : Z) (parts : list (list (Z * Z))) : list (Z * Z) := match parts with [] => [] | p :: r => with_number i p ++ by_place (i + 1) r end.
(** what is told of a value and matchers in a row; the value at a place that is not there is missing (5) *)
Definition place_told (c : ctx) (v : val) (start i : Z) (m : matcher) : list (Z * Z) :=
  match (if 0 <=? i + start then nth_error (elems v) (Z.to_nat (i + start)) else None) with Some a => visited (matches m (inner c) a) | None => [(5, -1)] end.
