(** What the helpers should say. *)
From Coq Require Import List ZArith NArith QArith Bool.
From Verif Require Import Base NumModel HelperModel.
Import ListNotations.
Local Open Scope Z_scope.

(** the verdict of a matcher, with or without !, for a claim *)
Definition verdict (negative : bool) (claim : Prop) (passes : bool) : Prop := if negative then passes = true <-> ~ claim else passes = true <-> claim.
(** integers that operators do not change the sign of: none negative, or both of a signed type *)
Definition agreeing (ta : ity) (a : Z) (te : ity) (e : Z) : Prop := (0 <= a /\ 0 <= e) \/ (exists b c, ta = Signed b /\ te = Signed c).
(** the smallest number of a type, of int if that is wider, divided by -1 *)
Definition overflows (ta : ity) (a : Z) (te : ity) (e : Z) : Prop := e = -1 /\ exists b, common ta te = Signed b /\ a = - 2 ^ (b - 1).
(** an integer *)
Definition whole_number (q : Q) : Prop := exists z, q == inject_Z z.
