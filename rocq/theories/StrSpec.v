(** What replacing, unescaping and squashing mean. *)
From Coq Require Import List NArith Bool Arith.
From Verif Require Import Base.
Import ListNotations.
Local Open Scope N_scope.

(** p occurs in s at position i *)
Definition at_pos (p s : bytes) (i : nat) : Prop := exists a b, s = a ++ p ++ b /\ length a = i.
(** r is s with the occurrences of [from], found from left to right without overlap, replaced *)
Inductive replaced (from to : bytes) : bytes -> bytes -> Prop :=
| RNone : forall s, (forall i, ~ at_pos from s i) -> replaced from to s s
| RNext : forall a s r, (forall i, at_pos from (a ++ from ++ s) i -> (length a <= i)%nat) -> replaced from to s r -> replaced from to (a ++ from ++ s) (a ++ to ++ r).

(** pieces of a literal: a character that is no backslash, or an escape *)
Inductive piece := Plain (c : N) | Esc (e : N).
(** the escapes of one letter, except the backslash itself *)
Definition meaning (e : N) : option N :=
  if e =? 98 then Some 8 else if e =? 102 then Some 12 else if e =? 110 then Some 10 else if e =? 114 then Some 13 else if e =? 116 then Some 9 else if e =? 34 then Some 34 else None.
(** a literal written *)
Definition written (l : list piece) : bytes := concat (map (fun p => match p with Plain c => [c] | Esc e => [92; e] end) l).
(** the text it denotes *)
Definition denotes (l : list piece) (t : bytes) : Prop := Forall2 (fun p c => match p with Plain x => x <> 92 /\ c = x | Esc e => meaning e = Some c end) l t.

(** tab, newline, space *)
Definition is_blank (c : N) : bool := (c =? 9) || (c =? 10) || (c =? 32).
(** the other characters *)
Definition solid (s : bytes) : bytes := filter (fun c => negb (is_blank c)) s.
(** number of a character *)
Definition count (c : N) (s : bytes) : nat := length (filter (N.eqb c) s).
(** after the text a, one is between single or double quotes *)
Definition quoted (a : bytes) : Prop := Nat.odd (count 39 a) = true \/ Nat.odd (count 34 a) = true.
(** squashed: the only blank is the space, none at the ends, no two adjacent ones outside quotes (nowhere, with the option) *)
Definition squashed (quote : bool) (r : bytes) : Prop :=
  (forall c, In c r -> is_blank c = true -> c = 32) /\ (forall c b, r = c :: b -> is_blank c = false) /\ (forall a c, r = a ++ [c] -> is_blank c = false) /\
  (forall a b, r = a ++ 32 :: 32 :: b -> quote = false /\ quoted a).
