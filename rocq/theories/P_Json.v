(** C36-C39: JSON texts, comparison and selectors. *)
From Coq Require Import List NArith ZArith Bool Arith Lia Sorting.Permutation.
From Verif Require Import Base StrSpec ExprModel ExprSpec JsonModel JsonSpec JsonProofs JsonProofs2 JsonProofs3 JsonProofs4 JsonProofs5.
Import ListNotations.
Local Open Scope N_scope.

(** C36: every text of a value, with any white space between the tokens, parses to exactly that value *)
Theorem C36_parses : forall A v s, document A v s -> tree_of (evaluate A) s = Done v [].
Proof. exact tree_of_document. Qed.
Print Assumptions C36_parses.
(** every value has such a text *)
Theorem C36_every_value : forall A v, writable A v -> exists s, document A v s.
Proof. exact writable_document. Qed.
Print Assumptions C36_every_value.
(** no text is the text of two values *)
Theorem C36_unambiguous : forall A v v' s, document A v s -> document A v' s -> v = v'.
Proof. exact document_one. Qed.
Print Assumptions C36_unambiguous.
(** the numbers of JSON are number texts *)
Theorem C36_numbers : forall A x s, json_number A x s -> number_text A x s.
Proof. exact json_number_text. Qed.
Print Assumptions C36_numbers.
(* [12, {"a": "x"}] *)
Example C36_example :
  document ints (Arr [Num 12%Z; Obj [(str "a", Str (str "x"))]]) (str "[12, {""a"": 'x' } ]") /\
  tree_of (evaluate ints) (str "[12, {""a"": 'x' } ]") = Done (Arr [Num 12%Z; Obj [(str "a", Str (str "x"))]]) [].
Proof.
  assert (D : document ints (Arr [Num 12%Z; Obj [(str "a", Str (str "x"))]]) (str "[12, {""a"": 'x' } ]")).
  { exists [], (str "[12, {""a"": 'x' } ]"), []. split; [constructor|]. split; [constructor|]. split; [|reflexivity].
    assert (W0 : ws []) by constructor. assert (W1 : ws (str " ")) by (constructor; [left; reflexivity|constructor]).
    change (str "[12, {""a"": 'x' } ]") with (91 :: ([] ++ str "12" ++ [] ++ 44 :: (str " " ++ str "{""a"": 'x' }" ++ str " ")) ++ [93]). apply T_arr.
    apply I_more; auto.
    - apply T_num. apply json_number_text. exists (str "12"). split; [|left; split; reflexivity].
      exists (str "12"), [], []. repeat split; [repeat constructor; vm_compute; discriminate|left; reflexivity|left; reflexivity|left; discriminate].
    - apply I_last; auto. change (str "{""a"": 'x' }") with (123 :: ([] ++ str """a""" ++ [] ++ 58 :: str " " ++ str "'x'" ++ str " ") ++ [125]). apply T_obj.
      apply M_last; auto.
      + exists 34, [Plain 97]. repeat split; auto; [|repeat constructor; discriminate]. constructor; [split; [discriminate|reflexivity]|constructor].
      + apply T_str. exists 39, [Plain 120]. repeat split; auto; [|repeat constructor; discriminate]. constructor; [split; [discriminate|reflexivity]|constructor]. }
  split; [exact D|]. exact (C36_parses _ _ _ D).
Qed.
(** a comma inside a call of a function splits the number: the array has two strings instead of one number *)
Theorem C36_call_refuted : evaluate ints (str "atan2(5,2)") = Some 2%Z /\ tree_of (evaluate ints) (str "[atan2(5,2)]") = Done (Arr [Str (str "atan2(5"); Str (str "2)")]) [].
Proof. split; vm_compute; reflexivity. Qed.
Print Assumptions C36_call_refuted.
(** an array or object that is not closed, and a value with another array or object behind it, are refused *)
Theorem C36_unclosed : forall (num : Type) (ev : bytes -> option num) s, unclosed s -> tree_of ev s = Fails \/ tree_of ev s = Throws.
Proof. exact refused_unclosed. Qed.
Print Assumptions C36_unclosed.
Theorem C36_doubled : forall A s, doubled A s -> tree_of (evaluate A) s = Fails.
Proof. exact refused_doubled. Qed.
Print Assumptions C36_doubled.
Example C36_refused_example : unclosed (str " [1, {""a"": 2}") /\ tree_of (evaluate ints) (str " [1, {""a"": 2}") = Fails /\ doubled ints (str "null []") /\ tree_of (evaluate ints) (str "null []") = Fails.
Proof.
  assert (W1 : ws (str " ")) by (constructor; [left; reflexivity|constructor]).
  split; [apply (Un_array (str " ") (str "1, {""a"": 2}")); [exact W1| |]; vm_compute; intuition discriminate|]. split; [vm_compute; reflexivity|]. split; [|vm_compute; reflexivity].
  exists Null, (str "null"), [], (str " "), (Arr []), (str "[]"), []. assert (W0 : ws []) by constructor. repeat (split; [first [exact W0|exact W1|apply T_null|apply (T_empty_arr ints []); exact W0|left; eauto]|]). reflexivity.
Qed.
(** texts that are no document are accepted *)
Theorem C36_trailing_comma_refuted : tree_of (evaluate ints) (str "[1,]") = Done (Arr [Num 1%Z]) [] /\ ~ exists v, document ints v (str "[1,]").
Proof. exact trailing_comma. Qed.
Print Assumptions C36_trailing_comma_refuted.
Theorem C36_stray_refuted : tree_of (evaluate ints) (str "]") = Done (Str (str "]")) [] /\ tree_of (evaluate ints) [] = Done Absent [].
Proof. split; vm_compute; reflexivity. Qed.
Print Assumptions C36_stray_refuted.

(** C37: on every text, with any evaluator of numbers, tokenizer and parser end *)
Theorem C37_ends : forall (num : Type) (ev : bytes -> option num) s, tree_of ev s <> Calls.
Proof. exact tree_ends. Qed.
Print Assumptions C37_ends.
(** an exception leaves them only if the last character but white space is a quote, an apostrophe or a slash *)
Theorem C37_throws : forall (num : Type) (ev : bytes -> option num) s, tree_of ev s = Throws -> exists a q w, StrModel.c_str s = a ++ q :: w /\ (q = 34 \/ q = 39 \/ q = 47) /\ ws w.
Proof. exact tree_throws. Qed.
Print Assumptions C37_throws.
Theorem C37_throws_refuted : exists s1 s2, tree_of (evaluate ints) s1 = Throws /\ s2 = [91; 47; 32] /\ tree_of (evaluate ints) s2 = Throws.
Proof. exists [34], [91; 47; 32]. vm_compute. auto. Qed.
Print Assumptions C37_throws_refuted.
Example C37_example : tree_of (evaluate ints) (str "{""a"":[1,2}") = Fails /\ tree_of (evaluate ints) (str "[1 /") = Fails /\ tree_of (evaluate ints) (str "[[[[[[") = Fails.
Proof. vm_compute. auto. Qed.

(** C38: an actual document matches exactly if it meets the expected one *)
Theorem C38_match : forall num near pat cl e a, jmatch near pat cl e a = true <-> meets num near pat cl e a.
Proof. exact jmatch_meets. Qed.
Print Assumptions C38_match.
(** on texts *)
Theorem C38_texts : forall A near pat cl ve va es s, document A ve es -> document A va s ->
  json_match (evaluate A) near pat cl es s = Some (if jmatch near pat cl ve va then 0 else 1)%Z.
Proof. exact json_match_documents. Qed.
Print Assumptions C38_texts.
(** a text that is refused, expected or actual, is reported as such (-1): it neither matches nor differs *)
Theorem C38_refused : forall A near pat cl v d s, document A v d ->
  (doubled A s -> json_match (evaluate A) near pat cl d s = Some (-1)%Z /\ json_match (evaluate A) near pat cl s d = Some (-1)%Z) /\
  (unclosed s -> (json_match (evaluate A) near pat cl d s = Some (-1)%Z /\ json_match (evaluate A) near pat cl s d = Some (-1)%Z) \/ (json_match (evaluate A) near pat cl d s = None /\ json_match (evaluate A) near pat cl s d = None)).
Proof. exact match_refused. Qed.
Print Assumptions C38_refused.
(** the order of members does not matter, at any depth: in the actual document (keys being unique), and in the expected one *)
Theorem C38_actual_order : forall num near pat cl e a a', shuffled num a a' -> unique_keys num cl a -> jmatch near pat cl e a = jmatch near pat cl e a'.
Proof. exact (fun (num : Type) near pat cl e a a' H U => jmatch_iff num near pat cl e a e a' (actual_order num near pat cl e a a' H U)). Qed.
Print Assumptions C38_actual_order.
Theorem C38_expect_order : forall num near pat cl e e' a, shuffled num e e' -> jmatch near pat cl e a = jmatch near pat cl e' a.
Proof. exact (fun (num : Type) near pat cl e e' a H => jmatch_iff num near pat cl e a e' a (expect_order num near pat cl e e' a H)). Qed.
Print Assumptions C38_expect_order.
(** a document matches itself *)
Theorem C38_self : forall num near pat cl, (forall x, near x x = true) -> forall v, plain_doc num cl v -> jmatch near pat cl v v = true.
Proof. exact (fun (num : Type) near pat cl NR v PD => proj2 (jmatch_meets num near pat cl v v) (meets_self num near pat cl NR v PD)). Qed.
Print Assumptions C38_self.
(** more members in the actual object do no harm *)
Theorem C38_extra : forall (num : Type) near pat cl (le la extra : list (bytes * value num)), jmatch near pat cl (Obj le) (Obj la) = true -> jmatch near pat cl (Obj le) (Obj (la ++ extra)) = true.
Proof. exact (fun (num : Type) near pat cl le la extra M => proj2 (jmatch_meets num near pat cl _ _) (meets_extra num near pat cl le la extra (proj1 (jmatch_meets num near pat cl _ _) M))). Qed.
Print Assumptions C38_extra.
(** nothing matches an absent value *)
Theorem C38_absent : forall (num : Type) near pat cl e a, e = Absent \/ a = Absent -> jmatch (num := num) near pat cl e a = false.
Proof. exact absent_never. Qed.
Print Assumptions C38_absent.
Example C38_example :
  let e := Obj [(str "b", Arr [Null]); (str "A", Num 1%Z)] in let a := Obj [(str "a", Num 1%Z); (str "c", Bool true); (str "b", Arr [Null])] in
  jmatch Z.eqb (fun _ _ _ => false) true e a = true /\ jmatch Z.eqb (fun _ _ _ => false) false e a = false /\ unique_keys Z true a /\ plain_doc Z true a /\
  shuffled Z a (Obj [(str "b", Arr [Null]); (str "c", Bool true); (str "a", Num 1%Z)]).
Proof.
  assert (ND : NoDup (map (fun p : bytes * value Z => fold_str true (fst p)) [(str "a", Num 1%Z); (str "c", Bool true); (str "b", Arr [Null])])).
  { vm_compute. repeat constructor; cbn; intuition discriminate. }
  cbn zeta. split; [vm_compute; reflexivity|]. split; [vm_compute; reflexivity|]. split; [|split].
  - apply U_obj; [exact ND|]. repeat (apply Forall_cons); [apply U_leaf; discriminate|apply U_leaf; discriminate|apply U_arr; repeat constructor; discriminate|apply Forall_nil].
  - apply P_obj; [exact ND|]. repeat (apply Forall_cons); [apply P_num|apply P_bool|apply P_arr; repeat constructor|apply Forall_nil].
  - eapply S_obj; [|repeat (apply Forall2_cons; [split; [reflexivity|apply S_same]|]); apply Forall2_nil].
    apply (Permutation_rev [(str "a", Num 1%Z); (str "c", Bool true); (str "b", Arr [Null])]).
Qed.
(** with a key twice the order does matter, and a document does not match itself *)
Theorem C38_duplicates_refuted :
  let a := Obj [(str "k", Num 1%Z); (str "k", Num 2%Z)] in let a' := Obj [(str "k", Num 2%Z); (str "k", Num 1%Z)] in
  jmatch Z.eqb (fun _ _ _ => false) false a a = false /\
  jmatch Z.eqb (fun _ _ _ => false) false (Obj [(str "k", Num 1%Z)]) a <> jmatch Z.eqb (fun _ _ _ => false) false (Obj [(str "k", Num 1%Z)]) a'.
Proof. split; [vm_compute; reflexivity|vm_compute; discriminate]. Qed.
Print Assumptions C38_duplicates_refuted.

(** C39: a path text is understood as its steps *)
Theorem C39_text : forall l t, path_text l t -> steps_of t = l.
Proof. exact steps_of_text. Qed.
Print Assumptions C39_text.
(** a value is found exactly if following the steps leads to it *)
Theorem C39_found : forall (num : Type) cl l t (v w : value num), path_text l t -> (follow cl (Some v) (steps_of t) = Found w <-> path cl v l w).
Proof. exact (fun (num : Type) cl l t v w PT => eq_ind_r (fun x => follow cl (Some v) x = Found w <-> path cl v l w) (follow_found cl l (path_text_proper l t PT) v w) (steps_of_text l t PT)). Qed.
Print Assumptions C39_found.
(** none is found exactly if all steps but the last can be taken and the last cannot *)
Theorem C39_missing : forall (num : Type) cl l t (v : value num), path_text l t -> (follow cl (Some v) (steps_of t) = Missing <-> exists p s u, l = p ++ [s] /\ path cl v p u /\ forall w, ~ stepped cl u s w).
Proof. exact (fun (num : Type) cl l t v PT => eq_ind_r (fun x => follow cl (Some v) x = Missing <-> exists p s u, l = p ++ [s] /\ path cl v p u /\ forall w, ~ stepped cl u s w) (follow_missing cl l (path_text_proper l t PT) v) (steps_of_text l t PT)). Qed.
Print Assumptions C39_missing.
(** a null node is dereferenced exactly if an earlier step cannot be taken *)
Theorem C39_null : forall (num : Type) cl l t (v : value num), path_text l t -> (follow cl (Some v) (steps_of t) = NullDeref <-> exists p s q u, l = p ++ s :: q /\ q <> [] /\ path cl v p u /\ forall w, ~ stepped cl u s w).
Proof. exact (fun (num : Type) cl l t v PT => eq_ind_r (fun x => follow cl (Some v) x = NullDeref <-> exists p s q u, l = p ++ s :: q /\ q <> [] /\ path cl v p u /\ forall w, ~ stepped cl u s w) (follow_null cl l (path_text_proper l t PT) v) (steps_of_text l t PT)). Qed.
Print Assumptions C39_null.
Example C39_example :
  path_text [Key (str "a"); Index (-1)%Z; Key (str "b.c")] (str ".a[-1][""b.c""]") /\
  follow false (Some (Obj [(str "a", Arr [Null; Obj [(str "b.c", Num 7%Z)]])])) (steps_of (str ".a[-1][""b.c""]")) = Found (Num 7%Z) /\
  follow false (Some (Obj [(str "a", Arr [Null; @Null Z])])) (steps_of (str ".a[5]")) = Missing.
Proof.
  split; [|vm_compute; auto].
  assert (W0 : ws []) by constructor.
  change (str ".a[-1][""b.c""]") with ((46 :: [] ++ str "a" ++ []) ++ (91 :: [] ++ (45 :: str "1") ++ [] ++ [93]) ++ (91 :: [] ++ (34 :: str "b.c" ++ [34]) ++ [] ++ [93]) ++ []).
  repeat apply Pt_step; [| | |apply Pt_nil].
  - apply St_dot; auto; [|repeat constructor; discriminate]. split; [discriminate|]. split.
    + intros c r E. injection E as <- _. lia.
    + intros c r E. change (str "a") with ([] ++ [97]) in E. apply app_inj_tail in E. destruct E as [_ <-]. lia.
  - apply (St_back 1%Z (str "1") [] []); auto. apply (Dec_one 49); vm_compute; discriminate.
  - apply St_quoted; auto; [discriminate|repeat constructor; discriminate].
Qed.
(** the null node *)
Theorem C39_null_refuted : exists v t, follow false (Some (v : value Z)) (steps_of t) = NullDeref.
Proof. exists (Obj []), (str ".a.b"). vm_compute. reflexivity. Qed.
Print Assumptions C39_null_refuted.
(** a closing bracket inside a quoted key ends the step *)
Theorem C39_bracket_refuted : steps_of (str "[""a]b""]") = [Key (str """a")].
Proof. vm_compute. reflexivity. Qed.
Print Assumptions C39_bracket_refuted.
