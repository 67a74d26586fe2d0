(** The text of a refusal. *)
From Coq Require Import List NArith Bool Arith.
From Verif Require Import Base OptionSpec.
Import ListNotations.
Local Open Scope N_scope.

(** pieces with a separator between them *)
Fixpoint join (sep : bytes) (l : list bytes) : bytes := match l with [] => [] | [x] => x | x :: r => x ++ sep ++ join sep r end.
(** a text in a colour of the console; the colours are numbers of two digits *)
Definition coloured (colour : N) (s : bytes) : bytes := [27] ++ str "[" ++ [48 + colour / 10; 48 + colour mod 10] ++ str "m" ++ s ++ [27] ++ str "[0m".
(** the text *)
Definition message (ambiguous : bool) (w : bytes) (listed : list bytes) : bytes :=
  (if ambiguous then str "ambiguous" else str "invalid") ++ str " argument: " ++ coloured 31 w ++ str ", " ++ (if ambiguous then str "candidates" else str "availables") ++ str ": " ++
  join (str " | ") (map (fun s => coloured 32 s) listed).
(** those of a list that a word begins, in their order *)
Inductive begun (w : bytes) : list bytes -> list bytes -> Prop :=
| BNil : begun w [] []
| BIn : forall a l r, ci_prefix w a -> begun w l r -> begun w (a :: l) (a :: r)
| BOut : forall a l r, ~ ci_prefix w a -> begun w l r -> begun w (a :: l) r.
(** what a refusal lists *)
Definition refusal (w : bytes) (l : list bytes) (ambiguous : bool) (listed : list bytes) : Prop :=
  (ambiguous = false /\ listed = l /\ Forall (fun x => ~ ci_prefix w x) l) \/ (ambiguous = true /\ (exists x, In x l /\ ci_prefix w x) /\ begun w l listed).
