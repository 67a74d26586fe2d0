(** The most similar element. *)
From Coq Require Import List ZArith.
Import ListNotations.
Local Open Scope Z_scope.

(** [a] is the first of the best in a list, by [rank], and better than [least]; [rest] are the others in their order *)
Definition first_best {A} (rank : A -> Z) (least : Z) (l : list A) (a : A) (rest : list A) : Prop :=
  exists l1 l2, l = l1 ++ a :: l2 /\ rest = l1 ++ l2 /\ least < rank a /\ (forall x, In x l1 -> rank x < rank a) /\ (forall x, In x l2 -> rank x <= rank a).
