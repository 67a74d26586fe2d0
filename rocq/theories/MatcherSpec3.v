(** What the failures of AnyOf and Every tell. *)
From Coq Require Import List ZArith Bool.
From Verif Require Import FailModel FailSpec MatcherModel.
Import ListNotations.
Local Open Scope Z_scope.

(** what is told of the parts before the first that has nothing to tell *)
Fixpoint before_silent (parts : list (list (Z * Z))) : list (list (Z * Z)) := match parts with [] | [] :: _ => [] | p :: r => p :: before_silent r end.
(** the elements that lie in both ranges, of the context and of the matcher *)
Definition chosen (c : ctx) (r : range) (l : list val) : list val :=
  map snd (filter (fun p => let i := Z.of_nat (fst p) in (c_rs c <=? i) && (i <? c_re c) && ((r_start r <=? i) && (i <? r_end r))) (combine (seq 0 (length l)) l)).
