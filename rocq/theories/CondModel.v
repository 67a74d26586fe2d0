(** Model of OK(e) and KO(e) with one argument: the expression h2_0cp() > e and what the operators of h2_0cp and h2_1cp make of it
    (source/assert/h2_assert.hpp:41-85, 88-89, 94-95; source/assert/h2_assert.cpp:36-45).

    An expression is operands joined by binary operators; an operand is whatever binds tighter than these (names, literals, calls,
    unary operators, anything in parentheses).  Assignments and ?: are left out.  How C++ groups operators is the function [parse].
    An operator between types that have none is an error of the compiler; user-defined operators on h2_1cp and h2_2cp are left out. *)
From Coq Require Import List ZArith Bool Arith.
From Verif Require Import NumModel.
Import ListNotations.

(** binary operators of C++ that associate to the left (the text that follows h2_0cp() > at h2_assert.hpp:89, 95) *)
Inductive bop := Mul | Div | Rem | Add | Sub | Shl | Shr | Lt | Gt | Le | Ge | Equal | Unequal | BitAnd | BitXor | BitOr | And | Or.
(** their levels, the tightest first ([expr.mul] to [expr.log.or]; h2_assert.hpp:89, 95) *)
Definition level (o : bop) : nat :=
  match o with Mul | Div | Rem => 5 | Add | Sub => 6 | Shl | Shr => 7 | Lt | Gt | Le | Ge => 9 | Equal | Unequal => 10 | BitAnd => 11 | BitXor => 12 | BitOr => 13 | And => 14 | Or => 15 end.
(** expressions grouped (h2_assert.hpp:89, 95) *)
Inductive tree (A : Type) := Leaf (a : A) | Bin (o : bop) (l r : tree A).
Arguments Leaf {A}. Arguments Bin {A}.
(** one more operator and operand to the right (h2_assert.hpp:89, 95) *)
Fixpoint attach {A} (t : tree A) (o : bop) (x : A) : tree A :=
  match t with
  | Leaf _ => Bin o t (Leaf x)
  | Bin o' l r => if level o <? level o' then Bin o' l (attach r o x) else Bin o t (Leaf x)
  end.
(** the grouping of x o1 x1 o2 x2 ... (h2_assert.hpp:89, 95) *)
Definition parse {A} (x : A) (rest : list (bop * A)) : tree A := fold_left (fun t p => attach t (fst p) (snd p)) rest (Leaf x).

(** what an expression with h2_0cp() in it is: h2_0cp (h2_assert.hpp:67-70), h2_1cp (49-52), h2_2cp (41-47), or an ordinary expression *)
Inductive thing (A : Type) := Zero | One (a : tree A) | Two (op : op1) (l r : tree A) | Plain (t : tree A).
Arguments Zero {A}. Arguments One {A}. Arguments Two {A}. Arguments Plain {A}.
(** the operators of h2_1cp (h2_assert.hpp:53-64) *)
Definition of_1cp (o : bop) : option op1 :=
  match o with Equal => Some OEq | Unequal => Some ONe | Gt => Some OGt | Lt => Some OLt | Ge => Some OGe | Le => Some OLe | _ => None end.
(** which operator is called, None if there is none (h2_assert.hpp:41-70); h2_0cp() is the operand None *)
Fixpoint elaborate {A} (t : tree (option A)) : option (thing A) :=
  match t with
  | Leaf None => Some Zero
  | Leaf (Some a) => Some (Plain (Leaf a))
  | Bin o l r =>
      match elaborate l, elaborate r with
      | Some Zero, Some (Plain b) => match o with Gt => Some (One b) | _ => None end
      | Some (One a), Some (Plain b) => option_map (fun c => Two c a b) (of_1cp o)
      | Some (Plain a), Some (Plain b) => Some (Plain (Bin o a b))
      | _, _ => None
      end
  end.
(** which h2_ok1 is called and with what (h2_assert.hpp:72-85): a condition, or a comparison *)
Inductive judged (A : Type) := Condition (a : tree A) | Comparison (op : op1) (l r : tree A).
Arguments Condition {A}. Arguments Comparison {A}.
(** the check OK(x rest) or KO(x rest), None if it does not compile (h2_assert.hpp:72-85, 88-89, 94-95) *)
Definition check {A} (x : A) (rest : list (bop * A)) : option (judged A) :=
  match elaborate (parse None ((Gt, Some x) :: map (fun p => (fst p, Some (snd p))) rest)) with
  | Some (One a) => Some (Condition a)
  | Some (Two op l r) => Some (Comparison op l r)
  | _ => None
  end.

(** ** with integers *)
(** an integer and its type (h2_assert.hpp:53-64) *)
Definition typed := (ity * Z)%type.
(** does a check pass (h2_assert.hpp:72-85, h2_assert.cpp:36-45: a failure expected and none come is a failure); [eval] gives the value of
    an operand, None if it is undefined *)
Definition passes (eval : tree typed -> option typed) (oppose : bool) (j : judged typed) : option bool :=
  match j with
  | Condition a => match eval a with Some (_, v) => Some (xorb oppose (negb (Z.eqb v 0))) | None => None end
  | Comparison op l r =>
      match eval l, eval r with Some (tl, x), Some (tr, y) => Some (xorb oppose (ok1 op tl x tr y)) | _, _ => None end
  end.
