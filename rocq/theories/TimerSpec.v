(** Time limits. *)
From Coq Require Import List NArith ZArith QArith.
From Verif Require Import Base MockmsgSpec.
Import ListNotations.
Local Open Scope Z_scope.

(** rounding to double keeps the order and leaves numbers of at most 53 bits as they are, wherever the point is *)
Record rounding (rnd : Q -> Q) : Prop := mkrounding {
  r_order : forall x y : Q, (x <= y)%Q -> (rnd x <= rnd y)%Q;
  r_exact : forall (n : Z) (k : nat), - 2 ^ 53 < n < 2 ^ 53 -> (k <= 1022)%nat -> (rnd (inject_Z n / inject_Z (2 ^ Z.of_nat k)) == inject_Z n / inject_Z (2 ^ Z.of_nat k))%Q }.
(** processor time of less than about twelve days, in millionths of a second *)
Definition measurable (start now : Z) : Prop := 0 <= now - start < 2 ^ 40.
(** limits that an int can hold *)
Definition limit (ms : Z) : Prop := - 2 ^ 31 <= ms < 2 ^ 31.
(** a numeral, with a sign if negative *)
Definition writes (w : bytes) (z : Z) : Prop := (0 <= z /\ numeral w = Some z) \/ (z < 0 /\ exists v, w = (45 :: v)%N /\ numeral v = Some (- z)).
