(** What it means that a text is, contains, begins or ends with another one. *)
From Coq Require Import List NArith Bool Arith.
Import ListNotations.
Local Open Scope N_scope.

(** the same character, or one is the upper case letter of the other *)
Definition same_char (caseless : bool) (c d : N) : Prop :=
  c = d \/ (caseless = true /\ ((65 <= c /\ c <= 90 /\ d = c + 32) \/ (65 <= d /\ d <= 90 /\ c = d + 32))).
(** the same text *)
Definition same_text (caseless : bool) (a b : list N) : Prop := Forall2 (same_char caseless) a b.
(** occurs in *)
Definition occurs (caseless : bool) (e a : list N) : Prop := exists p q r, a = p ++ q ++ r /\ same_text caseless q e.
(** is the beginning of *)
Definition begins_with (caseless : bool) (e a : list N) : Prop := exists q r, a = q ++ r /\ same_text caseless q e.
(** is the end of *)
Definition ends_with (caseless : bool) (e a : list N) : Prop := exists p q, a = p ++ q /\ same_text caseless q e.
(** a verdict, turned over by the operator ! *)
Definition says (neg : bool) (P : Prop) : Prop := if neg then ~ P else P.

(** space, tab, newline *)
Definition is_white (c : N) : Prop := c = 32 \/ c = 9 \/ c = 10.
(** a text is these words with white space around and between them *)
Inductive words : list N -> list (list N) -> Prop :=
| W_nil s : Forall is_white s -> words s []
| W_last s w : Forall is_white s -> w <> [] -> Forall (fun c => ~ is_white c) w -> words (s ++ w) [w]
| W_more s w c t ws : Forall is_white s -> w <> [] -> Forall (fun c => ~ is_white c) w -> is_white c -> words t ws -> words (s ++ w ++ c :: t) (w :: ws).
(** no NUL, no quotation marks *)
Definition unquoted (s : list N) : Prop := forall c, In c s -> c <> 0 /\ c <> 34 /\ c <> 39.
(** words with single spaces between them *)
Fixpoint joined (ws : list (list N)) : list N := match ws with [] => [] | [w] => w | w :: r => w ++ 32 :: joined r end.
