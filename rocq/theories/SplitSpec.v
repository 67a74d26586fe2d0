(** What splitting a comparison into its sides means, independently of the search. *)
From Coq Require Import List NArith Bool Arith.
From Verif Require Import Base.
Import ListNotations.
Local Open Scope N_scope.

(** the comparison operators *)
Definition two_op (op : bytes) : Prop := op = [61; 61] \/ op = [33; 61] \/ op = [62; 61] \/ op = [60; 61].
(** blanks *)
Definition blank (c : byte) : Prop := c = 32 \/ 9 <= c <= 13.
(** t without blanks at its end / beginning *)
Definition trimmed_end (s t : bytes) : Prop :=
  exists w, s = t ++ w /\ Forall blank w /\ forall t' c, t = t' ++ [c] -> ~ blank c.
Definition trimmed_begin (s t : bytes) : Prop :=
  exists w, s = w ++ t /\ Forall blank w /\ forall t' c, t = c :: t' -> ~ blank c.
(** number of double quotes *)
Definition quotes (s : bytes) : nat := count_occ N.eq_dec s 34.
(** the text after l is outside string literals *)
Definition outside (l : bytes) : Prop := Nat.even (quotes l) = true.
(** how often c stands in s outside string literals; [i] : inside a literal at the beginning *)
Fixpoint times (c : byte) (i : bool) (s : bytes) : nat :=
  match s with
  | [] => 0%nat
  | x :: s' => if x =? 34 then times c (negb i) s' else Nat.add (if (x =? c) && negb i then 1%nat else 0%nat) (times c i s')
  end.
(** op stands outside literals between l and r *)
Definition occurs (op s l r : bytes) : Prop := s = l ++ op ++ r /\ outside l.
(** the greater sign after l closes no less sign *)
Definition free_gt (s l r : bytes) : Prop := occurs [62] s l r /\ times 60 false l = times 62 false l.
(** the less sign before r is closed by no greater sign; r holds whole literals *)
Definition free_lt (s l r : bytes) : Prop := s = l ++ [60] ++ r /\ outside r /\ times 60 false r = times 62 false r.

(** expressions whose literals are closed and whose angle brackets come in pairs, as those around template arguments do *)
Inductive paired : bytes -> Prop :=
| p_nil : paired []
| p_char c s : c <> 34 -> c <> 60 -> c <> 62 -> paired s -> paired (c :: s)
| p_literal q s : ~ In 34 q -> paired s -> paired (34 :: q ++ 34 :: s)
| p_angle a s : paired a -> paired s -> paired (60 :: a ++ 62 :: s).
