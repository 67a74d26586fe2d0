(** Independent vocabulary for checked allocations. *)
From Coq Require Import List NArith Bool.
Import ListNotations.
Local Open Scope N_scope.

Definition pow2 (x : N) : Prop := exists k, x = 2 ^ k.

(** A is the least power of two that is at least 8 and at least al *)
Definition pow2_ceiling (al A : N) : Prop :=
  pow2 A /\ 8 <= A /\ al <= A /\ forall B, pow2 B -> 8 <= B -> al <= B -> A <= B.

(** half-open address range *)
Definition within (x lo hi : N) : Prop := lo <= x /\ x < hi.
