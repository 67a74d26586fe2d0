(** What H2_An is for: the foremost value of a list, inside all parentheses. *)
From Coq Require Import List NArith Arith.
From Verif Require Import Base MacroModel MacroSpec.
Import ListNotations.
Local Open Scope N_scope.

(** up to 63 values, as the list macros can count *)
Definition countable (vs : list (list tok)) : Prop := Forall value vs /\ (length vs <= 63)%nat.
(** not all in parentheses: x, f(x), (int)3, (a)(b) *)
Definition unwrapped (v : list tok) : Prop := value v /\ forall a, text a -> v <> group a.
(** [v] is the foremost value of the list [vs], inside [d] pairs of parentheses; 0 stands for none *)
Inductive foremost : nat -> list (list tok) -> list tok -> Prop :=
| fore_none : foremost 0 [] [numeral 0]
| fore_bare : forall v vs, countable (v :: vs) -> unwrapped v -> foremost 0 (v :: vs) v
| fore_group : forall d l v vs, foremost d l v -> countable (group (listed l) :: vs) -> foremost (S d) (group (listed l) :: vs) v.
