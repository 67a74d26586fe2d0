(** Model of matchers kept in variables: the operators ! ~ * , * n, (start, end) and / of h2_polymorphic_matcher
    (source/matcher/h2_matcher.hpp:22-59), which change the object they are applied to and return a reference to it, the
    combinators that copy their operands (source/matcher/h2_matches_logic.hpp:211-239,
    source/matcher/h2_matches_strcmp.hpp:40-47) and the checks OK (source/assert/h2_assert.hpp:27-39, 90-91).

    Simplified: the types of the operands (each combination of types is a template instance with the same code) and plain
    values as operands, which are temporaries without flags.  The order in which the operands of && and || and the arguments
    of a function are evaluated is left to the compiler by the language before C++17 (and for arguments still): a parameter,
    left to right or right to left. *)
From Coq Require Import List ZArith NArith Bool.
From Verif Require Import FailModel MatcherModel.
Import ListNotations.

(** a h2_polymorphic_matcher: its fields and its matches (h2_matcher.hpp:22-28) *)
Definition object := (flags * matcher)%type.
(** what is matched with it: the conversion to h2_matcher<T> (h2_matcher.hpp:69) *)
Definition whole (o : object) : matcher := MPoly (fst o) (snd o).
(** the variables holding matchers, such as auto x = Ge(1) (copy of h2_polymorphic_matcher, h2_matcher.hpp:22-28) *)
Definition store := N -> object.
(** assignment of one variable (h2_matcher.hpp:22-28) *)
Definition put (s : store) (x : N) (o : object) : store := fun y => if N.eqb y x then o else s y.

(** expressions over them (h2_matcher.hpp:29-59, h2_matches_logic.hpp:211-239, h2_matches_strcmp.hpp:40-47) *)
Inductive expr :=
| EMake (m : matcher)                      (* a call such as Ge(1): a new object (h2_matcher.hpp:28) *)
| EVar (x : N)                             (* the variable itself *)
| EOp (o : oper) (e : expr)                (* one of the operators (h2_matcher.hpp:29-59) *)
| ENot (e : expr)                          (* Not(e) (h2_matches_logic.hpp:211-212) *)
| ECond (b : bool) (e1 e2 : expr)          (* Conditional(b, e1, e2) (214-215) *)
| EAnd (e1 e2 : expr)                      (* e1 && e2 (224-225) *)
| EOr (e1 e2 : expr)                       (* e1 || e2 (231-232) *)
| EAllOf (l : list expr)                   (* AllOf(...) (217-218) *)
| EAnyOf (l : list expr)                   (* AnyOf(...) (219-220) *)
| ENoneOf (l : list expr).                 (* NoneOf(...) (221-222) *)

(** what an expression yields: a variable itself or an object without a name (the return types at h2_matcher.hpp:29-59 and h2_matches_logic.hpp:211-239) *)
Inductive ref := RVar (x : N) | RTmp (o : object).
(** the object referred to, copied (h2_matches_logic.hpp:4, 39, 72, 107) *)
Definition deref (s : store) (r : ref) : object := match r with RVar x => s x | RTmp o => o end.
(** an operator changes the object and returns *this (h2_matcher.hpp:29-59) *)
Definition operate (o : oper) (p : ref * store) : ref * store :=
  let '(r, s) := p in
  match r with
  | RVar x => (RVar x, put s x (apply_op (fst (s x)) o, snd (s x)))
  | RTmp (f, m) => (RTmp (apply_op f o, m), s)
  end.
(** a new object around given matches (h2_matcher.hpp:28) *)
Definition fresh (m : matcher) : ref := RTmp (flags0, m).

(** two operands taken by reference: copied only when both have been evaluated (h2_matches_logic.hpp:224-239) *)
Definition both (ltr : bool) (ev1 ev2 : store -> ref * store) (s : store) : (matcher * matcher) * store :=
  if ltr then let '(r1, s1) := ev1 s in let '(r2, s2) := ev2 s1 in ((whole (deref s2 r1), whole (deref s2 r2)), s2)
  else let '(r2, s1) := ev2 s in let '(r1, s2) := ev1 s1 in ((whole (deref s2 r1), whole (deref s2 r2)), s2).
(** two arguments taken by value: each copied as soon as it has been evaluated (h2_matches_logic.hpp:214-215) *)
Definition both_copied (ltr : bool) (ev1 ev2 : store -> ref * store) (s : store) : (matcher * matcher) * store :=
  if ltr then let '(r1, s1) := ev1 s in let '(r2, s2) := ev2 s1 in ((whole (deref s1 r1), whole (deref s2 r2)), s2)
  else let '(r2, s1) := ev2 s in let '(r1, s2) := ev1 s1 in ((whole (deref s2 r1), whole (deref s1 r2)), s2).

(** evaluation (h2_matcher.hpp:29-59, h2_matches_logic.hpp:211-239) *)
Fixpoint eval (ltr : bool) (e : expr) (s : store) {struct e} : ref * store :=
  match e with
  | EMake m => (fresh m, s)
  | EVar x => (RVar x, s)
  | EOp o e1 => operate o (eval ltr e1 s)
  | ENot e1 => let '(r, s1) := eval ltr e1 s in (fresh (MNot (whole (deref s1 r))), s1)
  | ECond b e1 e2 => let '((m1, m2), s1) := both_copied ltr (eval ltr e1) (eval ltr e2) s in (fresh (MCond b m1 m2), s1)
  | EAnd e1 e2 => let '((m1, m2), s1) := both ltr (eval ltr e1) (eval ltr e2) s in (fresh (MAnd m1 m2), s1)
  | EOr e1 e2 => let '((m1, m2), s1) := both ltr (eval ltr e1) (eval ltr e2) s in (fresh (MOr m1 m2), s1)
  | EAllOf l =>
      let '(rs, s1) := (fix args (l : list expr) (s : store) : list ref * store :=
         match l with
         | [] => ([], s)
         | e1 :: t => if ltr then let '(r, s1) := eval ltr e1 s in let '(rs, s2) := args t s1 in (r :: rs, s2)
                      else let '(rs, s1) := args t s in let '(r, s2) := eval ltr e1 s1 in (r :: rs, s2)
         end) l s in
      (fresh (MAllOf (map (fun r => whole (deref s1 r)) rs)), s1)
  | EAnyOf l =>
      let '(rs, s1) := (fix args (l : list expr) (s : store) : list ref * store :=
         match l with
         | [] => ([], s)
         | e1 :: t => if ltr then let '(r, s1) := eval ltr e1 s in let '(rs, s2) := args t s1 in (r :: rs, s2)
                      else let '(rs, s1) := args t s in let '(r, s2) := eval ltr e1 s1 in (r :: rs, s2)
         end) l s in
      (fresh (MAnyOf (map (fun r => whole (deref s1 r)) rs)), s1)
  | ENoneOf l =>
      let '(rs, s1) := (fix args (l : list expr) (s : store) : list ref * store :=
         match l with
         | [] => ([], s)
         | e1 :: t => if ltr then let '(r, s1) := eval ltr e1 s in let '(rs, s2) := args t s1 in (r :: rs, s2)
                      else let '(rs, s1) := args t s in let '(r, s2) := eval ltr e1 s1 in (r :: rs, s2)
         end) l s in
      (fresh (MNoneOf (map (fun r => whole (deref s1 r)) rs)), s1)
  end.

(** statements of a test: auto x = e; and OK(e, v); (h2_matcher.hpp:22-28, source/assert/h2_assert.hpp:27-39, 90-91) *)
Inductive stmt := SLet (x : N) (e : expr) | SOk (e : expr) (v : val).
(** one statement: the verdict of a check, the variables afterwards; OK takes the matcher by value and matches in the
    default context (h2_assert.hpp:27-32) *)
Definition step (ltr : bool) (st : stmt) (s : store) : list bool * store :=
  match st with
  | SLet x e => let '(r, s1) := eval ltr e s in ([], put s1 x (deref s1 r))
  | SOk e v => let '(r, s1) := eval ltr e s in ([isnull (matches (whole (deref s1 r)) ctx0 v)], s1)
  end.
(** a test: its verdicts in order and the variables at the end (h2_assert.hpp:27-32, 90-91) *)
Fixpoint run (ltr : bool) (p : list stmt) (s : store) : list bool * store :=
  match p with
  | [] => ([], s)
  | st :: t => let '(b, s1) := step ltr st s in let '(bs, s2) := run ltr t s1 in (b ++ bs, s2)
  end.
