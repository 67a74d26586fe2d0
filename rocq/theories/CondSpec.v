(** What an expression means in C++: its grouping by the grammar, and the value of comparisons of integers. *)
From Coq Require Import List ZArith Bool Arith.
From Verif Require Import NumModel NumSpec CondModel.
Import ListNotations.

(** the grammar: E_n is E_m with m < n, or E_n op E_m, where op is of level n and m < n *)
Inductive E {A} : nat -> tree A -> Prop :=
| E_operand : forall n x, E n (Leaf x)
| E_binary : forall n o l r m, level o <= n -> E (level o) l -> m < level o -> E m r -> E n (Bin o l r).
(** the operands and operators as they are written *)
Fixpoint written {A} (t : tree A) : A * list (bop * A) :=
  match t with
  | Leaf x => (x, [])
  | Bin o l r => (fst (written l), snd (written l) ++ (o, fst (written r)) :: snd (written r))
  end.
(** [t] is what [x rest] means *)
Definition means {A} (x : A) (rest : list (bop * A)) (t : tree A) : Prop := E 15 t /\ written t = (x, rest).
(** the operator as written *)
Definition spelled (op : op1) : bop := match op with OEq => Equal | ONe => Unequal | OGt => Gt | OLt => Lt | OGe => Ge | OLe => Le end.
(** the operators in an expression *)
Definition arithmetic (o : bop) : Prop := In o [Mul; Div; Rem; Add; Sub; Shl; Shr].
Definition relational (o : bop) : Prop := In o [Lt; Gt; Le; Ge].
Definition equality (o : bop) : Prop := In o [Equal; Unequal].
(** a condition that can be checked: arithmetic alone, or arithmetic compared with arithmetic, or arithmetic on the left of == or !=
    and arithmetic or relations on the right *)
Definition checkable {A} (rest : list (bop * A)) : Prop :=
  Forall (fun p => arithmetic (fst p)) rest \/
  exists l o x r, rest = l ++ (o, x) :: r /\ Forall (fun p => arithmetic (fst p)) l /\
    ((relational o /\ Forall (fun p => arithmetic (fst p)) r) \/ (equality o /\ Forall (fun p => arithmetic (fst p) \/ relational (fst p)) r)).

(** ** integers *)
Local Open Scope Z_scope.
(** the type in which C++ compares integers: after promotion to at least 32 bits, the wider one, and unsigned if that one is no narrower *)
Definition promoted (t : ity) : ity := if 32 <=? bits t then t else Signed 32.
Definition compared_in (a b : ity) : ity :=
  let p := promoted a in let q := promoted b in
  if Bool.eqb (signed p) (signed q) then (if bits p <? bits q then q else p)
  else let (s, u) := if signed p then (p, q) else (q, p) in if bits u <? bits s then s else u.
(** the value of l op r in C++ *)
Definition true_in_cpp (op : op1) (tl : ity) (l : Z) (tr : ity) (r : Z) : Prop :=
  let t := compared_in tl tr in holds op (conv t l) (conv t r).
(** [eval] evaluates as C++ does: comparisons as said, 0 or 1 in bool, everything else in any way *)
Definition evaluates (eval : tree typed -> option typed) : Prop :=
  (forall t ty v, eval t = Some (ty, v) -> value ty v) /\
  forall op l r ty v, eval (Bin (spelled op) l r) = Some (ty, v) ->
    exists tl x tr y, eval l = Some (tl, x) /\ eval r = Some (tr, y) /\ ty = Boolean /\ (v = 1 <-> true_in_cpp op tl x tr y).
(** nothing is lost when == and != take the two sides: both signed, both unsigned or none negative, a bool compared with 0 or 1, and what is
    compared by != fits the type of the right side *)
Definition comparable (op : op1) (tl : ity) (l : Z) (tr : ity) (r : Z) : Prop :=
  match op with
  | OEq | ONe => (signed tl = signed tr \/ (0 <= l /\ 0 <= r)) /\ (tl = Boolean -> r = 0 \/ r = 1) /\ (op = ONe -> in_type tr l = true)
  | _ => True
  end.
