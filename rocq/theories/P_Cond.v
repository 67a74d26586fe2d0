(** C103: OK and KO of a condition. *)
From Coq Require Import List ZArith Bool Arith.
From Verif Require Import NumModel NumSpec CondModel CondSpec CondProofs CondProofs2.
Import ListNotations.

(** every expression has one meaning in the grammar of C++ *)
Theorem C103_one_meaning : forall A (x : A) rest, exists t, means x rest t /\ forall u, means x rest u -> u = t.
Proof. exact (fun A => one_meaning A). Qed.
Print Assumptions C103_one_meaning.
(** 1 + 2 * 3 == 4 < 5 && 6 *)
Example C103_one_meaning_example : means 1 [(Add, 2); (Mul, 3); (Equal, 4); (Lt, 5); (And, 6)]
  (Bin And (Bin Equal (Bin Add (Leaf 1) (Bin Mul (Leaf 2) (Leaf 3))) (Bin Lt (Leaf 4) (Leaf 5))) (Leaf 6)).
Proof. exact (parse_means nat 1 [(Add, 2); (Mul, 3); (Equal, 4); (Lt, 5); (And, 6)]). Qed.

(** a check that compiles judges the expression as it is written, as a whole or by its two sides and the operator between them *)
Theorem C103_as_written : forall A (x : A) rest t j, means x rest t -> check x rest = Some j ->
  j = Condition t \/ exists op l r, j = Comparison op l r /\ t = Bin (spelled op) l r.
Proof. exact @as_written. Qed.
Print Assumptions C103_as_written.
(** OK(1 + 2 == 3 < 4), OK(1 << 2) *)
Example C103_as_written_example : check 1 [(Add, 2); (Equal, 3); (Lt, 4)] = Some (Comparison OEq (Bin Add (Leaf 1) (Leaf 2)) (Bin Lt (Leaf 3) (Leaf 4))) /\
  check 1 [(Shl, 2)] = Some (Condition (Bin Shl (Leaf 1) (Leaf 2))).
Proof. split; reflexivity. Qed.

(** which checks compile *)
Theorem C103_compiles : forall A (x : A) rest, (exists j, check x rest = Some j) <-> checkable rest.
Proof. exact @compiles. Qed.
Print Assumptions C103_compiles.
(** OK(1 < 2 - 3) does; OK(1 < 2 < 3), OK(1 < 2 == 3), OK(1 && 2), OK(1 == 2 || 3) and OK(1 & 2) do not *)
Example C103_compiles_example : checkable [(Lt, 2); (Sub, 3)] /\ check 1 [(Lt, 2); (Lt, 3)] = None /\ check 1 [(Lt, 2); (Equal, 3)] = None /\
  check 1 [(And, 2)] = None /\ check 1 [(Equal, 2); (Or, 3)] = None /\ check 1 [(BitAnd, 2)] = None.
Proof.
  split; [|repeat split; reflexivity]. right. exists [], Lt, 2, [(Sub, 3)]. split; [reflexivity|]. split; [constructor|]. left.
  split; [left; reflexivity|]. constructor; [|constructor]. cbn. auto 10.
Qed.

Local Open Scope Z_scope.
(** OK(l op r) is l op r in C++: < > <= >= always, == and != if nothing is lost in taking the two sides *)
Theorem C103_comparison : forall op tl l tr r, value tl l -> value tr r -> comparable op tl l tr r -> (ok1 op tl l tr r = true <-> true_in_cpp op tl l tr r).
Proof. exact ok1_cpp. Qed.
Print Assumptions C103_comparison.
(** -1 < 1u is false in C++, and OK(-1 < 1u) fails *)
Example C103_comparison_example : value (Signed 32) (-1) /\ value (Unsigned 32) 1 /\ comparable OLt (Signed 32) (-1) (Unsigned 32) 1 /\
  ok1 OLt (Signed 32) (-1) (Unsigned 32) 1 = false /\ ok1 OLt (Signed 32) (-1) (Unsigned 16) 1 = true /\ ok1 OEq (Signed 8) 44 (Signed 64) 44 = true.
Proof. vm_compute. intuition reflexivity. Qed.

(** OK of a condition passes, and KO fails, exactly when the condition is true in C++ *)
Theorem C103_verdict : forall eval x rest t j oppose ty v, evaluates eval -> means x rest t -> check x rest = Some j -> eval t = Some (ty, v) ->
  (forall op l r tl a tr b, j = Comparison op l r -> eval l = Some (tl, a) -> eval r = Some (tr, b) -> comparable op tl a tr b) ->
  exists p, passes eval oppose j = Some p /\ (p = true <-> (v <> 0 <-> oppose = false)).
Proof. exact verdict. Qed.
Print Assumptions C103_verdict.
(** OK(2 + 3 > 4), KO(2 + 3 > 4), OK(2 - 2) *)
Example C103_verdict_example : let i v := (Signed 32, v) in
  evaluates value_of /\ check (i 2) [(Add, i 3); (Gt, i 4)] = Some (Comparison OGt (Bin Add (Leaf (i 2)) (Leaf (i 3))) (Leaf (i 4))) /\
  value_of (parse (i 2) [(Add, i 3); (Gt, i 4)]) = Some (Boolean, 1) /\
  passes value_of false (Comparison OGt (Bin Add (Leaf (i 2)) (Leaf (i 3))) (Leaf (i 4))) = Some true /\
  passes value_of true (Comparison OGt (Bin Add (Leaf (i 2)) (Leaf (i 3))) (Leaf (i 4))) = Some false /\
  check (i 2) [(Sub, i 2)] = Some (Condition (Bin Sub (Leaf (i 2)) (Leaf (i 2)))) /\
  passes value_of false (Condition (Bin Sub (Leaf (i 2)) (Leaf (i 2)))) = Some false.
Proof. split; [exact value_of_evaluates|]. vm_compute. repeat split; reflexivity. Qed.

(** with == and != OK may fail though the condition is true, and pass though it is false *)
(** -1 == 4294967295u is true; OK(-1 == 4294967295u) fails *)
Theorem C103_true_refuted : exists eval x rest t j, evaluates eval /\ means x rest t /\ check x rest = Some j /\ eval t = Some (Boolean, 1) /\ passes eval false j = Some false.
Proof.
  exists value_of, (Signed 32, -1), [(Equal, (Unsigned 32, 4294967295))], (Bin Equal (Leaf (Signed 32, -1)) (Leaf (Unsigned 32, 4294967295))),
    (Comparison OEq (Leaf (Signed 32, -1)) (Leaf (Unsigned 32, 4294967295))).
  split; [exact value_of_evaluates|]. split; [exact (parse_means _ (Signed 32, -1) [(Equal, (Unsigned 32, 4294967295))])|]. vm_compute. repeat split; reflexivity.
Qed.
Print Assumptions C103_true_refuted.
(** true == 7 is false; OK(true == 7) passes *)
Theorem C103_false_refuted : exists eval x rest t j, evaluates eval /\ means x rest t /\ check x rest = Some j /\ eval t = Some (Boolean, 0) /\ passes eval false j = Some true.
Proof.
  exists value_of, (Boolean, 1), [(Equal, (Signed 32, 7))], (Bin Equal (Leaf (Boolean, 1)) (Leaf (Signed 32, 7))),
    (Comparison OEq (Leaf (Boolean, 1)) (Leaf (Signed 32, 7))).
  split; [exact value_of_evaluates|]. split; [exact (parse_means _ (Boolean, 1) [(Equal, (Signed 32, 7))])|]. vm_compute. repeat split; reflexivity.
Qed.
Print Assumptions C103_false_refuted.
(** 300 != (unsigned char)44 is true; OK(300 != (unsigned char)44) fails *)
Theorem C103_unequal_refuted : exists eval x rest t j, evaluates eval /\ means x rest t /\ check x rest = Some j /\ eval t = Some (Boolean, 1) /\
  (exists l r, j = Comparison ONe l r) /\ passes eval false j = Some false.
Proof.
  exists value_of, (Signed 32, 300), [(Unequal, (Unsigned 8, 44))], (Bin Unequal (Leaf (Signed 32, 300)) (Leaf (Unsigned 8, 44))),
    (Comparison ONe (Leaf (Signed 32, 300)) (Leaf (Unsigned 8, 44))).
  split; [exact value_of_evaluates|]. split; [exact (parse_means _ (Signed 32, 300) [(Unequal, (Unsigned 8, 44))])|].
  split; [reflexivity|]. split; [reflexivity|]. split; [eauto|reflexivity].
Qed.
Print Assumptions C103_unequal_refuted.
