(** What tests with matchers in variables are expected to mean, written without objects, references and evaluation order. *)
From Coq Require Import List ZArith NArith Bool.
From Verif Require Import MatcherModel MatcherSpec NamedModel.
Import ListNotations.

(** the boolean meaning of an expression when every variable keeps the meaning it has at the start *)
Fixpoint meaning (s : store) (e : expr) (ci sq : bool) (v : val) : bool :=
  match e with
  | EMake m => truth m ci sq v
  | EVar x => truth (MPoly (fst (s x)) (snd (s x))) ci sq v
  | EOp OpNot e1 => negb (meaning s e1 ci sq v)
  | EOp OpCaseless e1 => meaning s e1 true sq v
  | EOp OpSquash e1 => meaning s e1 ci true v
  | EOp _ e1 => meaning s e1 ci sq v
  | ENot e1 => negb (meaning s e1 ci sq v)
  | ECond b e1 e2 => if b then meaning s e1 ci sq v else meaning s e2 ci sq v
  | EAnd e1 e2 => meaning s e1 ci sq v && meaning s e2 ci sq v
  | EOr e1 e2 => meaning s e1 ci sq v || meaning s e2 ci sq v
  | EAllOf l => forallb (fun e1 => meaning s e1 ci sq v) l
  | EAnyOf l => existsb (fun e1 => meaning s e1 ci sq v) l
  | ENoneOf l => forallb (fun e1 => negb (meaning s e1 ci sq v)) l
  end.
(** the variable an operator in front of the expression would be applied to *)
Fixpoint target (e : expr) : option N :=
  match e with EVar x => Some x | EOp _ e1 => target e1 | _ => None end.
(** no operator is written on a variable *)
Fixpoint calm (e : expr) : bool :=
  match e with
  | EMake _ | EVar _ => true
  | EOp _ e1 => match target e1 with None => calm e1 | Some _ => false end
  | ENot e1 => calm e1
  | ECond _ e1 e2 | EAnd e1 e2 | EOr e1 e2 => calm e1 && calm e2
  | EAllOf l | EAnyOf l | ENoneOf l => forallb calm l
  end.
(** built from the logical combinators only, as are the variables *)
Fixpoint sober (e : expr) : Prop :=
  match e with
  | EMake m => logical m
  | EVar _ => True
  | EOp _ e1 | ENot e1 => sober e1
  | ECond _ e1 e2 | EAnd e1 e2 | EOr e1 e2 => sober e1 /\ sober e2
  | EAllOf l | EAnyOf l | ENoneOf l => (fix all l := match l with [] => True | e1 :: r => sober e1 /\ all r end) l
  end.
(** every variable holds a logical matcher *)
Definition sober_store (s : store) : Prop := forall x, logical (snd (s x)).
(** the operators written on variable x in an expression *)
Fixpoint written (x : N) (e : expr) : list oper :=
  match e with
  | EMake _ | EVar _ => []
  | EOp o e1 => written x e1 ++ match target e1 with Some y => if N.eqb x y then [o] else [] | None => [] end
  | ENot e1 => written x e1
  | ECond _ e1 e2 | EAnd e1 e2 | EOr e1 e2 => written x e1 ++ written x e2
  | EAllOf l | EAnyOf l | ENoneOf l => flat_map (written x) l
  end.
(** the expression of a statement *)
Definition said (st : stmt) : expr := match st with SLet _ e | SOk e _ => e end.
(** a statement that does not declare x anew *)
Definition keeps (x : N) (st : stmt) : bool := match st with SLet y _ => negb (N.eqb x y) | SOk _ _ => true end.
(** is it a tilde, is it a star *)
Definition is_caseless (o : oper) : bool := match o with OpCaseless => true | _ => false end.
(** is it a star *)
Definition is_squash (o : oper) : bool := match o with OpSquash => true | _ => false end.
