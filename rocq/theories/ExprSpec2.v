(** The value of an expression. *)
From Coq Require Import List.
From Verif Require Import Base ExprModel.

(** the value of an expression: its function applied to the values of its arguments, in their order *)
Fixpoint worth (A : alg) (t : tree) : R A :=
  match t with Lit s => lit A s | App0 f => app0 A f | App1 f a => app1 A f (worth A a) | App2 f a b => app2 A f (worth A a) (worth A b) end.
