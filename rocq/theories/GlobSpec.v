(** The meaning of a wildcard pattern, as an inductive relation. *)
From Coq Require Import List NArith.
From Verif Require Import Base.
Import ListNotations.
Local Open Scope N_scope.

Inductive glob (caseless : bool) : bytes -> bytes -> Prop :=
| glob_nil : glob caseless [] []
| glob_any : forall p c s, glob caseless p s -> glob caseless (63 :: p) (c :: s)
| glob_star : forall p u s, glob caseless p s -> glob caseless (42 :: p) (u ++ s)
| glob_char : forall a p c s, a <> 63 -> a <> 42 -> fold_char caseless a = fold_char caseless c ->
    glob caseless p s -> glob caseless (a :: p) (c :: s).

(** a C string: no NUL inside *)
Definition cstr (s : bytes) : Prop := Forall (fun c => c <> 0) s.
