(** What a random order is. *)
From Coq Require Import List ZArith NArith Bool Arith.
From Verif Require Import Base OrderModel OrderSpec.
Import ListNotations.
Local Open Scope Z_scope.

(** the order of the numbers *)
Definition seq_le (a b : tt) : Prop := o_seq a <= o_seq b.
Definition seq_tie (a b : tt) : bool := o_seq a =? o_seq b.
(** the same suites and cases in the same order, every case with a random number of its own, every suite with that of its last case *)
Definition drawn (r : nat -> Z) (ss mid : list tsuite) : Prop :=
  Forall2 (fun s m => same_test (st s) (st m) /\ Forall2 same_case (u_cases s) (u_cases m)) ss mid /\
  map (fun c => o_seq (ct c)) (flat_map u_cases mid) = map r (seq 0 (length (flat_map u_cases ss))) /\
  forall m, In m mid -> forall pre c, u_cases m = pre ++ [c] -> o_seq (st m) = o_seq (ct c).
(** what the modes sort by *)
Definition mode_le (o : shuffles) : tt -> tt -> Prop := if sh_name o then name_le else if sh_file o then file_le else seq_le.
Definition mode_tie (o : shuffles) : tt -> tt -> bool := if sh_name o then name_tie else if sh_file o then file_tie else seq_tie.
