(** What a suite should do, said without the model's functions. *)
From Coq Require Import List NArith Bool Arith.
From Verif Require Import SuiteModel.
Import ListNotations.
Local Open Scope N_scope.

(** the cases an item declares, with their values *)
Definition cases_of (i : item) : list (N * list value) := match i with ICase k => [(k, [])] | ICases ks => ks | _ => [] end.
Definition declared (l : list item) : list (N * list value) := flat_map cases_of l.
(** every case has a number of its own *)
Definition distinct (l : list item) : Prop := NoDup (map fst (declared l)).
(** what is seen of code other than cases, with Setup or without *)
Definition seen (setup : bool) (l : list item) : list event :=
  flat_map (fun i => match i with IStep n => [Stepped n] | ISetup n => if setup then [SetUp n] else [] | _ => [] end) l.
Definition is_cleanup (i : item) : bool := match i with ICleanup _ => true | _ => false end.
Definition no_cleanup (l : list item) : Prop := existsb is_cleanup l = false.
(** the values of a Cases have the types of the first; an assignment does not change a value of its own type *)
Definition same_types (i : item) : Prop :=
  match i with ICases ((k, f) :: ks) => forall p, In p ks -> map fst (snd p) = map fst f | _ => True end.
Definition faithful (w : world) : Prop := forall t v, convert w t (t, v) = (t, v).
(** the bodies that ran *)
Definition bodies (es : list event) : list (N * list value) := flat_map (fun e => match e with Ran k vs _ => [(k, vs)] | _ => [] end) es.
