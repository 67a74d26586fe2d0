(** C93: blocks that judge output. *)
From Coq Require Import List NArith ZArith Bool Arith.
From Verif Require Import Base StrModel StdioModel StdioSpec StdioProofs CoutModel CoutSpec CoutProofs.
Import ListNotations.

(** C93: with -c (go on after failures) a test reports exactly the bad verdicts in order and counts every verdict, whatever
    state the output was in before and however verbose *)
Theorem C93_all : forall normal l o, Forall flat l -> exists vs, verdicts l vs /\
  s_asserts (test normal true l o) = length vs /\ s_fails (test normal true l o) = bad vs /\ s_left (test normal true l o) = false.
Proof. exact test_all. Qed.
Print Assumptions C93_all.

(** C93: without, it reports the first bad verdict and counts those up to it; it is left exactly if there is one *)
Theorem C93_first : forall normal l o, Forall flat l -> exists vs, verdicts l vs /\
  s_asserts (test normal false l o) = until vs /\ s_fails (test normal false l o) = firstn 1 (bad vs) /\ s_left (test normal false l o) = (match bad vs with [] => false | _ => true end).
Proof. exact test_first. Qed.
Print Assumptions C93_first.

(** the verdicts are determined by what is written in the test *)
Theorem C93_determined : forall l vs, verdicts l vs -> forall ws, verdicts l ws -> vs = ws.
Proof. exact verdicts_det. Qed.
Print Assumptions C93_determined.

Definition is_text (s : bytes) : bytes -> bool := fun t => if list_eq_dec N.eq_dec t s then true else false.
Definition sample : list item :=
  [Do (Printf (str "x"));
   Cout (is_text (str "ab")) [] 1 [Do (Printf (str "a")); Check true 2; Do (Stream 2 (str "b"))];
   Do (Printf (str "y"));
   Cout (is_text (str "e")) (str "stderr") 3 [Do (Printf (str "a")); Check false 4; Do (Fputs (str "e") 2)];
   Cout (is_text (str "q")) (str "STDOUT") 5 [Do (Syslog (str "q")); Do (Printf (str "r"))];
   Check true 6].
Example C93_example : Forall flat sample /\
  s_fails (test true true sample init) = [RCheck 4; RCout 5 (str "r")] /\ s_asserts (test true true sample init) = 6 /\
  s_fails (test false false sample init) = [RCheck 4] /\ s_asserts (test false false sample init) = 3.
Proof.
  split.
  - repeat (constructor; [cbn; repeat constructor|]); constructor.
  - split; [vm_compute; reflexivity|split; [vm_compute; reflexivity|split; [vm_compute; reflexivity|vm_compute; reflexivity]]].
Qed.

(** C93: of a block inside a block, both are judged by what was said in the inner one *)
Theorem C93_nested : forall normal judge type place a judge1 type1 place1 b c o, Forall plain b -> Forall sound b -> Forall plain c -> Forall sound c ->
  exists said text, says_all (selects type1) b said /\ cut said text /\
  s_fails (test normal true [Cout judge type place (map Do a ++ [Cout judge1 type1 place1 (map Do b)] ++ map Do c)] o) =
  (if judge1 text then [] else [RCout place1 text]) ++ (if judge text then [] else [RCout place text]).
Proof. exact nested. Qed.
Print Assumptions C93_nested.
Example C93_nested_example :
  s_fails (test true true [Cout (is_text (str "abc")) [] 1 (map Do [Printf (str "a")] ++ [Cout (is_text (str "b")) [] 2 (map Do [Printf (str "b")])] ++ map Do [Printf (str "c")])] init) = [RCout 1 (str "b")].
Proof. vm_compute. reflexivity. Qed.

(** it is not so that a block is judged by all that is said in it when there is a block inside *)
Theorem C93_nested_refuted : exists a b c, says_all (selects []) (a ++ b ++ c) (str "abc") /\
  s_fails (test true true [Cout (is_text (str "abc")) [] 1 (map Do a ++ [Cout (fun _ => true) [] 2 (map Do b)] ++ map Do c)] init) = [RCout 1 (str "b")].
Proof.
  exists [Printf (str "a")], [Printf (str "b")], [Printf (str "c")]. split; [|vm_compute; reflexivity].
  assert (S1 : forall c, c <> 0%N -> says (selects []) (Printf [c]) [c]).
  { intros c H. apply (Says_writes _ _ [(1%Z, [c])]); [discriminate|apply W_printf; apply Cut_all; intros [E|[]]; congruence|].
    apply (P_take _ 1%Z [c] Out [] []); [left; split; reflexivity|left; reflexivity|constructor]. }
  change (str "abc") with ([97%N] ++ [98%N] ++ [99%N] ++ []). cbn [app].
  apply (All_cons _ (Printf [97%N]) [97%N]); [apply S1; discriminate|].
  apply (All_cons _ (Printf [98%N]) [98%N]); [apply S1; discriminate|].
  apply (All_cons _ (Printf [99%N]) [99%N]); [apply S1; discriminate|constructor].
Qed.
Print Assumptions C93_nested_refuted.

(** it is not so that a block that is entered counts as an assertion: a failure inside it passes its judging by, and what is
    said afterwards is still taken *)
Theorem C93_left_refuted : exists l o, s_asserts (test true false [Cout (fun _ => false) [] 1 l] o) = 1 /\
  s_fails (test true false [Cout (fun _ => false) [] 1 l] o) = [RCheck 2] /\
  buffer (fst (run true [Printf (str "later")] (s_io (test true false [Cout (fun _ => false) [] 1 l] o)))) = str "alater".
Proof. exists [Do (Printf (str "a")); Check false 2], init. split; [vm_compute; reflexivity|split; [vm_compute; reflexivity|vm_compute; reflexivity]]. Qed.
Print Assumptions C93_left_refuted.
