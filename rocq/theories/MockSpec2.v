(** Which matcher judges an argument of a mock. *)
From Coq Require Import List Arith.
From Verif Require Import MockSpec.
Import ListNotations.

(** the matcher for the argument at a place, after one more modifier *)
Definition concerns {V R} (j : nat) (x : option (V -> bool)) (m : modifier V R) : option (V -> bool) :=
  match m with MWith ms => nth_error ms j | MTh i m => if Nat.eqb i j then Some m else x | MReturn _ => x end.
(** the matcher written last for the argument at a place, if there is one *)
Definition in_force {V R} (g : group V R) (j : nat) : option (V -> bool) := fold_left (concerns j) (g_mods g) (nth_error (g_matchers g) j).
(** no more than 20 matchers are written *)
Definition within_twenty {V R} (g : group V R) : Prop := length (g_matchers g) <= 20 /\ forall ms, In (MWith ms) (g_mods g) -> length ms <= 20.
