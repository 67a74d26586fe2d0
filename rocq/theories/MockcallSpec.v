(** What is meant by the calls of a mocked function and by what it does. *)
From Coq Require Import List Arith Bool ZArith.
From Verif Require Import MockModel MockcallModel.
Import ListNotations.

Definition name {V} (t : tree V) : nat := let 'Node f _ _ _ _ := t in f.
Definition arguments {V} (t : tree V) : list V := let 'Node _ _ a _ _ := t in a.
Definition inside {V} (t : tree V) : list (tree V) := let 'Node _ _ _ i _ := t in i.
Definition ended {V} (t : tree V) : ending V := let 'Node _ _ _ _ e := t in e.
(** what the caller is given: a value, or (None) an exception *)
Definition result {V} (e : ending V) : option V := match e with Returned v => Some v | _ => None end.
(** the calls of a function that are not made, directly or not, by that function *)
Fixpoint outermost {V} (f : nat) (t : tree V) : list (tree V) := let 'Node g _ _ i _ := t in if g =? f then [t] else flat_map (outermost f) i.
Definition outer {V} (f : nat) (ts : list (tree V)) : list (tree V) := flat_map (outermost f) ts.
(** one of the calls, or one inside them *)
Inductive among {V} (t : tree V) : list (tree V) -> Prop :=
| am_here : forall ts, among t (t :: ts)
| am_in : forall f o a i e ts, among t i -> among t (Node f o a i e :: ts)
| am_next : forall x ts, among t ts -> among t (x :: ts).

(** what a test gives as the routine: a value, a function of the parameters, or one of the object and the parameters *)
Inductive given (V : Type) := Value (v : V) | Plain (g : list V -> prog V) | Member (g : V -> list V -> prog V).
Arguments Value {V}. Arguments Plain {V}. Arguments Member {V}.
(** what it does *)
Definition meaning {V} (x : given V) (this : V) (args : list V) : prog V := match x with Value v => Ret v | Plain g => g args | Member g => g this args end.
(** how it is handed over *)
Definition handed {V} (x : given V) : routine V := match x with Value v => of_value v | Plain g => of_function g | Member g => of_method g end.
(** a chain of declarations in which routines are given so *)
Definition declared {V} (d : decl V (given V)) : decl V (routine V) :=
  match d with
  | Expect b ms => Expect b ms | With ms => With ms | Th i m => Th i m
  | Return r => Return (handed r) | Assign r => Assign (handed r) | Greed b => Greed b
  end.
(** the calls that came, charged as the Mock area says *)
Definition after {V R} (ab : bool) (k : mocker V R) (ts : list (tree V)) : mocker V R := fst (calls ab k (map arguments ts)).
(** what the mocked function does for the next call: what was given with the expectation charged, or else what the function itself does; None: the case is left *)
Definition next {V} (ab : bool) (own : nat -> given V) (f : nat) (ds : list (decl V (given V))) (before : list (tree V)) (this : V) (args : list V) : option (prog V) :=
  let o := snd (matches ab (after ab (declares ds) before) args) in
  if o_aborted o then None
  else Some (meaning (match o_charged o with Some i => match nth_error (routines (declares ds)) i with Some (Some r) => r | _ => own f end | None => own f end) this args).
