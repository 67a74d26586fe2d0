(** C92: matchers kept in variables. *)
From Coq Require Import List ZArith NArith Bool.
From Verif Require Import FailModel MatcherModel MatcherSpec NamedModel NamedSpec NamedProofs.
Import ListNotations.

(** matchers for the examples: Ge(n), Se("A") heeding the flag of ~ *)
Definition ge_num (n : Z) : matcher := MBase (fun _ _ v => match v with VNum z => (n <=? z)%Z | _ => false end).
Definition se_a : matcher := MBase (fun ci _ v => match v with VStr [c] => N.eqb c 65 || (ci && N.eqb c 97) | _ => false end).
Definition vars : store := fun x => if N.eqb x 1 then (flags0, ge_num 5) else (flags0, se_a).

(** C92: a test whose expressions write no operator on a variable: every check has the boolean meaning of what is written, from
    the variables as they were declared, in every order of evaluation; the variables are unchanged at the end *)
Theorem C92_calm : forall ltr l s, (forall e v, In (e, v) l -> calm e = true /\ sober e) -> sober_store s ->
  run ltr (map (fun ev => SOk (fst ev) (snd ev)) l) s = (map (fun ev => meaning s (fst ev) false false (snd ev)) l, s).
Proof. exact calm_test. Qed.
Print Assumptions C92_calm.
Example C92_calm_example :
  run true [SOk (EAnd (EVar 1) (ENot (EOp OpNot (EMake (ge_num 3))))) (VNum 5); SOk (EOp OpNot (EAnyOf [EVar 1; EMake (ge_num 2)])) (VNum 1); SOk (ENot (EVar 1)) (VNum 6)] vars
  = ([true; true; false], vars) /\
  calm (EOp OpNot (EAnyOf [EVar 1; EMake (ge_num 2)])) = true.
Proof. split; [reflexivity|reflexivity]. Qed.

(** such an expression changes no variable even when it is made of other matchers (containers and all else) *)
Theorem C92_unchanged : forall ltr e s, calm e = true -> snd (eval ltr e s) = s.
Proof. exact calm_store. Qed.
Print Assumptions C92_unchanged.
Example C92_unchanged_example : calm (EOp (OpRange 0 2) (ENoneOf [EVar 1; EOp OpNot (EMake (MCountOf (ge_num 2)))])) = true.
Proof. reflexivity. Qed.

(** C92: a variable remembers every operator ever written on it: its verdict at any later point is the original one, negated
    when the number of ! so far is odd, caseless when there was any ~, squashing when there was any * *)
Theorem C92_history : forall ltr x m p v s, s x = (flags0, m) -> logical m -> forallb (keeps x) p = true ->
  fst (run ltr (p ++ [SOk (EVar x) v]) s) =
  fst (run ltr p s) ++
  [let ops := flat_map (fun st => written x (said st)) p in
   xorb (Nat.odd (nots ops)) (truth m (existsb is_caseless ops) (existsb is_squash ops) v)].
Proof. exact history. Qed.
Print Assumptions C92_history.
Example C92_history_example :
  let p := [SOk (EOp OpCaseless (EVar 2)) (VStr [97%N]); SLet 1 (EOr (EVar 2) (EOp OpNot (EVar 2)))] in
  forallb (keeps 2) p = true /\ flat_map (fun st => written 2 (said st)) p = [OpCaseless; OpNot] /\
  fst (run true (p ++ [SOk (EVar 2) (VStr [97%N])]) vars) = [true; false].
Proof. cbv zeta. split; [reflexivity|split; [reflexivity|reflexivity]]. Qed.

(** C92: a variable declared from an expression is a copy: later operators on the variables it was declared from do not reach it *)
Theorem C92_copy : forall ltr y e p v s, sober_store s -> calm e = true -> sober e -> forallb (keeps y) p = true -> (forall st, In st p -> written y (said st) = []) ->
  fst (run ltr (SLet y e :: p ++ [SOk (EVar y) v]) s) = fst (run ltr (SLet y e :: p) s) ++ [meaning s e false false v].
Proof. exact copied. Qed.
Print Assumptions C92_copy.
Example C92_copy_example :
  fst (run true ([SLet 3 (EAnd (EVar 1) (EMake (ge_num 7)))] ++ [SOk (EOp OpNot (EVar 1)) (VNum 8)] ++ [SOk (EVar 3) (VNum 8)]) vars) = [false; true].
Proof. reflexivity. Qed.

(** the same variable with and without ! in one expression: both operands are the negated one, in either order of evaluation *)
Theorem C92_twice : forall ltr x m s v, s x = (flags0, m) -> logical m ->
  fst (run ltr [SOk (EAnd (EVar x) (EOp OpNot (EVar x))) v] s) = [negb (truth m false false v)] /\
  fst (run ltr [SOk (EOr (EVar x) (EOp OpNot (EVar x))) v] s) = [negb (truth m false false v)] /\
  fst (run ltr [SOk (EAllOf [EVar x; EOp OpNot (EVar x)]) v] s) = [negb (truth m false false v)] /\
  fst (run ltr [SOk (EAnyOf [EOp OpNot (EVar x); EVar x]) v] s) = [negb (truth m false false v)].
Proof. exact twice_verdict. Qed.
Print Assumptions C92_twice.
Example C92_twice_example : fst (run false [SOk (EAnd (EVar 1) (EOp OpNot (EVar 1))) (VNum 4)] vars) = [true].
Proof. reflexivity. Qed.

(** the same check OK(!x, v) in a loop: its verdicts alternate *)
Theorem C92_loop : forall ltr x v n s m, s x = (flags0, m) -> logical m ->
  let vs := fst (run ltr (repeat (SOk (EOp OpNot (EVar x)) v) n) s) in
  length vs = n /\ forall k, (k < n)%nat -> nth k vs false = if Nat.even k then negb (truth m false false v) else truth m false false v.
Proof. exact loop. Qed.
Print Assumptions C92_loop.
Example C92_loop_example : fst (run true (repeat (SOk (EOp OpNot (EVar 1)) (VNum 4)) 3) vars) = [true; false; true].
Proof. reflexivity. Qed.

(** it is not so that a check means what is written in it whatever stands before: OK(x, 4) passes after OK(!x, 4) passed *)
Theorem C92_independent_refuted : exists ltr s x m v, s x = (flags0, m) /\ logical m /\
  fst (run ltr [SOk (EVar x) v] s) = [false] /\ fst (run ltr [SOk (EOp OpNot (EVar x)) v; SOk (EVar x) v] s) = [true; true].
Proof. exists true, vars, 1%N, (ge_num 5), (VNum 4). split; [reflexivity|split; [exact Logic.I|split; [reflexivity|reflexivity]]]. Qed.
Print Assumptions C92_independent_refuted.

(** it is not so that x && !x never passes, nor that x || !x always does *)
Theorem C92_contradiction_refuted : exists ltr s x v w, 
  fst (run ltr [SOk (EAnd (EVar x) (EOp OpNot (EVar x))) v] s) = [true] /\ fst (run ltr [SOk (EOr (EVar x) (EOp OpNot (EVar x))) w] s) = [false].
Proof. exists true, vars, 1%N, (VNum 4), (VNum 6). split; [reflexivity|reflexivity]. Qed.
Print Assumptions C92_contradiction_refuted.

(** it is not so that declaring y as !x leaves x alone *)
Theorem C92_declared_refuted : exists ltr s x y v, x <> y /\
  fst (run ltr [SOk (EVar x) v] s) = [true] /\ fst (run ltr [SLet y (EOp OpNot (EVar x)); SOk (EVar x) v] s) = [false].
Proof. exists true, vars, 1%N, 3%N, (VNum 6). split; [discriminate|split; [reflexivity|reflexivity]]. Qed.
Print Assumptions C92_declared_refuted.

(** it is not so that the order of evaluation never matters: Conditional takes copies as it goes *)
Theorem C92_order_refuted : exists e s v, fst (run true [SOk e v] s) <> fst (run false [SOk e v] s).
Proof. exists (ECond true (EVar 1) (EOp OpNot (EVar 1))), vars, (VNum 6). discriminate. Qed.
Print Assumptions C92_order_refuted.
