(** What watching memory promises, told from the text of the user code alone: where a statement stands, not how the run switches. *)
From Coq Require Import List NArith Bool.
From Verif Require Import HookModel.
Import ListNotations.
Local Open Scope N_scope.

(** the allocations written in a statement, each with the place it is to be charged to: the innermost BLOCK around it, or nowhere within UNMEM *)
Fixpoint places (watched : bool) (l : N) (s : stmt) : list (N * option N) :=
  match s with
  | SAlloc k => [(k, if watched then Some l else None)]
  | STry b => flat_map (places watched l) b
  | SBlock l1 unmem _ b => flat_map (places (watched && negb unmem) l1) b
  | _ => []
  end.
(** code in which UNMEM contains none of: a regular expression, an exception, a failing check, a further UNMEM *)
Fixpoint calm (inside : bool) (s : stmt) : bool :=
  match s with
  | SAlloc _ | SFree _ => true
  | SHelp | SFail | SThrow => negb inside
  | STry b => forallb (calm inside) b
  | SBlock _ unmem _ b => negb (inside && unmem) && forallb (calm (inside || unmem)) b
  end.
(** the blocks written in a statement with "noleak", and the memory allocated in it *)
Fixpoint blocks (s : stmt) : list (N * bool) :=
  match s with STry b => flat_map blocks b | SBlock l _ noleak b => (l, noleak) :: flat_map blocks b | _ => [] end.
Fixpoint allocs (s : stmt) : list N :=
  match s with SAlloc k => [k] | STry b => flat_map allocs b | SBlock _ _ _ b => flat_map allocs b | _ => [] end.
(** no try in it *)
Fixpoint untried (s : stmt) : bool := match s with STry _ => false | SBlock _ _ _ b => forallb untried b | _ => true end.
Definition blocks_of (c : case_) : list (N * bool) := (c_label c, false) :: flat_map blocks (c_body c) ++ flat_map blocks (c_cleanup c).
Definition allocs_of (c : case_) : list N := flat_map allocs (c_body c) ++ flat_map allocs (c_cleanup c).

(** at the end of every scope the memory reported is that charged to it and not released *)
Definition leaks_exact (bs : list (N * bool)) (es : list event) : Prop :=
  forall before l ks after noleak, es = before ++ Ended l ks :: after -> In (l, noleak) bs ->
    if noleak then ks = []
    else forall k, In k ks <-> In (Seen k (Some l)) before /\ ~ In (Freed k) before.
(** every allocation of a case is charged where it stands; what the clean-up code allocates is charged to some scope *)
Definition case_places (c : case_) (e : list event) : Prop :=
  forall k x, In (Seen k x) e ->
    In (k, x) (flat_map (places true (c_label c)) (c_body c)) \/ exists l, In (k, x) (flat_map (places true l) (c_cleanup c)).
(** without memory check: nothing is watched and no leak is reported *)
Definition silent (e : event) : Prop := (exists k, e = Seen k None) \/ (exists l, e = Ended l []).
