(** C40, C63: JSON printed and compared side by side. *)
From Coq Require Import List NArith ZArith Bool Arith Lia Sorting.Permutation.
From Verif Require Import Base StrSpec ExprModel ExprSpec LineModel JsonModel JsonSpec JsonProofs2 PrintModel PrintSpec PrintProofs DualProofs DualProofs2 DualProofs3.
Import ListNotations.
Local Open Scope N_scope.

(** C63: what is printed of a value, folded or not, is a JSON text of exactly this value *)
Theorem C63_printed : forall A show fold v, showable A show v -> document A v (shown (format show fold [34] 0 false [] v)).
Proof. exact format_shown. Qed.
Print Assumptions C63_printed.
(** so the text of a selection, parsed again, is the value selected *)
Theorem C63_select : forall A show fold v, showable A show v -> tree_of (evaluate A) (select_text show fold v) = Done v [].
Proof. exact select_parses. Qed.
Print Assumptions C63_select.
Definition digits (z : Z) : bytes := if Z.eqb z 1 then str "1" else if Z.eqb z 2 then str "2" else str "0".
Lemma digits_one : json_number ints 1%Z (digits 1%Z).
Proof. exists (str "1"). split; [|left; split; reflexivity]. exists (str "1"), [], []. repeat split; [repeat constructor; vm_compute; discriminate|left; reflexivity|left; reflexivity|left; discriminate]. Qed.
Lemma digits_two : json_number ints 2%Z (digits 2%Z).
Proof. exists (str "2"). split; [|left; split; reflexivity]. exists (str "2"), [], []. repeat split; [repeat constructor; vm_compute; discriminate|left; reflexivity|left; reflexivity|left; discriminate]. Qed.
Definition doc1 : value Z := Obj [(str "a", Arr [Num 1%Z; Null; Bool true]); (str "b", Str (str "x y")); (str "c", Pat (str "z*"))].
Lemma doc1_showable : showable ints digits doc1.
Proof.
  apply Sh_obj. repeat (constructor; [split; [discriminate|split; [repeat constructor; vm_compute; discriminate|]]|]); [| | |constructor].
  - apply Sh_arr. repeat constructor. exact digits_one.
  - apply Sh_str. repeat constructor; vm_compute; discriminate.
  - apply Sh_pat. repeat constructor; vm_compute; discriminate.
Qed.
Example C63_example : showable ints digits doc1 /\ select_text digits true doc1 = str "{""a"": [1, null, true], ""b"": ""x y"", ""c"": /z*/}" /\
  tree_of (evaluate ints) (str "{""a"": [1, null, true], ""b"": ""x y"", ""c"": /z*/}") = Done doc1 [].
Proof. split; [exact doc1_showable|]. split; vm_compute; reflexivity. Qed.
(** a quote inside a string is not escaped, an empty key is not printed: the text is of another value *)
Theorem C63_quote_refuted : exists s : bytes, select_text digits false (Arr [Str s]) = str "[""a"",""b""]" /\ tree_of (evaluate ints) (select_text digits false (Arr [Str s])) <> Done (Arr [Str s]) [].
Proof. exists (str "a"",""b"). split; [vm_compute; reflexivity|]. vm_compute. discriminate. Qed.
Print Assumptions C63_quote_refuted.
Theorem C63_empty_key_refuted : exists v : value Z, select_text digits false v = str "{1}" /\ tree_of (evaluate ints) (select_text digits false v) <> Done v [].
Proof. exists (Obj [([], Num 1%Z)]). split; [vm_compute; reflexivity|]. vm_compute. discriminate. Qed.
Print Assumptions C63_empty_key_refuted.

(** C40: every element of the expectation occurs exactly once, in its order, as expected side of the dual at its place *)
Theorem C40_left : forall num show near pat score gt floor sim n cl depth rel i k (e : value num) j k' (a : value num), whole e -> whole a -> (height e <= n)%nat -> (height a <= n)%nat ->
  left_of show (mk_dual num show near pat score gt floor sim n cl depth rel (Some (i, (k, e))) (Some (j, (k', a)))) k e.
Proof. exact dual_left. Qed.
Print Assumptions C40_left.
(** every element of the actual document occurs exactly once; those of an array in their order unless it is paired with an object *)
Theorem C40_right : forall num show near pat score gt floor sim n cl depth rel i k (e : value num) j k' (a : value num), whole e -> whole a -> (height e <= n)%nat -> (height a <= n)%nat ->
  right_of show (mk_dual num show near pat score gt floor sim n cl depth rel (Some (i, (k, e))) (Some (j, (k', a)))) k' a.
Proof. exact dual_right. Qed.
Print Assumptions C40_right.
(** members of two objects under the same key share a row *)
Theorem C40_pairs : forall num show near pat score gt floor sim n cl depth rel i ke le j ka la k v k' w,
  whole (Obj le) -> whole (Obj la) -> (height (@Obj num le) <= n)%nat -> (height (@Obj num la) <= n)%nat ->
  NoDup (map (fun p => fold_str cl (fst p)) le) -> NoDup (map (fun p => fold_str cl (fst p)) la) -> In (k, v) le -> In (k', w) la -> fold_str cl k' = fold_str cl k ->
  exists h ch c, mk_dual num show near pat score gt floor sim n cl depth rel (Some (i, (ke, Obj le))) (Some (j, (ka, Obj la))) = Dual h ch /\ In c ch /\ left_of show c k v /\ right_of show c k' w.
Proof. exact dual_pairs. Qed.
Print Assumptions C40_pairs.
(** both columns have the same number of lines, whatever is folded *)
Theorem C40_rows : forall fold d, length (fst (align fold d)) = length (snd (align fold d)).
Proof. exact align_rows. Qed.
Print Assumptions C40_rows.
(** and so has any run of elements: an element starts on the same line in both columns *)
Theorem C40_run : forall fold l, length (concat (map (fun d => fst (align fold d)) l)) = length (concat (map (fun d => snd (align fold d)) l)).
Proof. exact align_run. Qed.
Print Assumptions C40_run.
(** with fold at most 1 the left column reads as the expectation, the right one as the actual document with children in some order *)
Theorem C40_shown : forall A show fold, (fold <= 1)%nat -> forall near pat score gt floor sim n cl e a, showable A show e -> showable A show a -> (height e <= n)%nat -> (height a <= n)%nat ->
  document A e (shown (fst (@diff (R A) show near pat score gt floor sim n cl fold e a))) /\
  exists a', rearranged a a' /\ document A a' (shown (snd (@diff (R A) show near pat score gt floor sim n cl fold e a))).
Proof. exact diff_shown. Qed.
Print Assumptions C40_shown.
(** an expectation {"a": [1, null, true], "b": "x y", "c": /z*/} and the actual {"c": "zz", "d": 2, "a": [1, 2]} *)
Definition doc2 : value Z := Obj [(str "c", Str (str "zz")); (str "d", Num 2%Z); (str "a", Arr [Num 1%Z; Num 2%Z])].
Lemma doc2_showable : showable ints digits doc2.
Proof.
  apply Sh_obj. repeat (constructor; [split; [discriminate|split; [repeat constructor; vm_compute; discriminate|]]|]); [| | |constructor].
  - apply Sh_str. repeat constructor; vm_compute; discriminate.
  - apply Sh_num. exact digits_two.
  - apply Sh_arr. repeat constructor; [exact digits_one|exact digits_two].
Qed.
(** an estimate of similarity: equal strings are alike, all else is not *)
Definition alike (cl : bool) (e a : nat * (bytes * value Z)) : nat := match snd (snd e), snd (snd a) with Str s, Str t => if bytes_eqb s t then 1 else 0 | _, _ => 0 end%nat.
Definition show_diff (fold : nat) (e a : value Z) : list bytes * list bytes :=
  let d := diff digits Z.eqb (fun _ _ _ => false) (fun x y : nat => (y <? x)%nat) 0%nat alike 5 false fold e a in (map text (fst d), map text (snd d)).
Example C40_example : whole doc1 /\ whole doc2 /\ (height doc1 <= 5)%nat /\ (height doc2 <= 5)%nat /\
  NoDup (map (fun p => fold_str false (fst p)) [(str "a", 1); (str "b", 2); (str "c", 3)]) /\
  show_diff 0 doc1 doc2 =
    ([str "{"; str "  ""a"": ["; str "    1, "; str "    null, "; str "    true"; str "  ], "; str "  ""b"": ""x y"", "; str "  ""c"": /z*/"; str "}"],
     [str "{"; str "  ""a"": ["; str "    1, "; str "    2"; str "    "; str "  ], "; str "  ""d"": 2, "; str "  ""c"": ""zz"""; str "}"]).
Proof.
  split; [exact (showable_whole ints digits doc1 doc1_showable)|]. split; [exact (showable_whole ints digits doc2 doc2_showable)|]. split; [cbn; lia|]. split; [cbn; lia|].
  split; [repeat constructor; cbn; intuition discriminate|]. vm_compute. reflexivity.
Qed.
(** a short document is shown in full at every fold *)
Theorem C40_short : forall A show near pat score gt floor sim n cl fold e a, showable A show e -> showable A show a -> (height e <= n)%nat -> (height a <= n)%nat ->
  ((length (lines_string (fst (@diff (R A) show near pat score gt floor sim n cl 0 e a))) < 20)%nat -> document A e (shown (fst (@diff (R A) show near pat score gt floor sim n cl fold e a)))) /\
  ((length (lines_string (snd (@diff (R A) show near pat score gt floor sim n cl 0 e a))) < 20)%nat -> exists a', rearranged a a' /\ document A a' (shown (snd (@diff (R A) show near pat score gt floor sim n cl fold e a)))).
Proof. exact short_shown. Qed.
Print Assumptions C40_short.
(** from fold 2 on, elements that match under keys that are the same take one line *)
Theorem C40_one_line : forall num show near pat score gt floor sim n cl depth rel fold i k (e : value num) j k' (a : value num), (2 <= fold)%nat -> fold_str cl k = fold_str cl k' -> meets num near pat cl e a ->
  exists l r, align fold (mk_dual num show near pat score gt floor sim (S n) cl depth rel (Some (i, (k, e))) (Some (j, (k', a)))) = ([l], [r]).
Proof. exact one_line. Qed.
Print Assumptions C40_one_line.
(** of two elements that share a row a key is coloured exactly if the keys differ, a value exactly if they do not match: green on the left, red and
    bold on the right, light blue and light purple if they share the row for want of a partner *)
Theorem C40_colours : forall num show near pat score gt floor sim n cl depth rel fold i k (e : value num) j k' (a : value num) t u, written show e t -> written show a u ->
  exists same_key matching, (same_key = true <-> fold_str cl k = fold_str cl k') /\ (matching = true <-> meets num near pat cl e a) /\
  align fold (mk_dual num show near pat score gt floor sim (S n) cl depth rel (Some (i, (k, e))) (Some (j, (k', a)))) =
  ([indented depth ++ keyed (if same_key then [] else left_colour rel) k ++ painted (if matching then [] else left_colour rel) t],
   [indented depth ++ keyed (if same_key then [] else right_colour rel) k' ++ painted (if matching then [] else right_colour rel) u]).
Proof. exact leaf_colours. Qed.
Print Assumptions C40_colours.
(** an element alone in its row is light blue on the left, light purple on the right *)
Theorem C40_alone : forall num show near pat score gt floor sim n cl depth rel fold i k (v : value num) t, written show v t ->
  align fold (mk_dual num show near pat score gt floor sim (S n) cl depth rel (Some (i, (k, v))) None) =
    ([indented depth ++ keyed (str "light blue") k ++ painted (str "light blue") t], [indented depth]) /\
  align fold (mk_dual num show near pat score gt floor sim (S n) cl depth rel None (Some (i, (k, v)))) =
    ([indented depth], [indented depth ++ keyed (str "light purple") k ++ painted (str "light purple") t]).
Proof. exact leaf_alone. Qed.
Print Assumptions C40_alone.
Example C40_colours_example :
  written digits (Num 1%Z) (str "1") /\ written digits (Str (str "x")) (34 :: str "x" ++ [34]) /\
  align 5 (mk_dual Z digits Z.eqb (fun _ _ _ => false) nat (fun x y : nat => (y <? x)%nat) 0%nat alike 5 true 1 false (Some (O, (str "a", Num 1%Z))) (Some (O, (str "A", Num 2%Z)))) =
    ([[str "  "; 27 :: str "{}"; 34 :: str "a" ++ [34]; 27 :: str "{reset}"; str ": "; 27 :: str "{green}"; str "1"; 27 :: str "{reset}"]],
     [[str "  "; 27 :: str "{}"; 34 :: str "A" ++ [34]; 27 :: str "{reset}"; str ": "; 27 :: str "{red,bold}"; str "2"; 27 :: str "{reset}"]]) /\
  showable ints digits (Arr [Num 1%Z; Num 2%Z]) /\ (length (lines_string (fst (diff digits Z.eqb (fun _ _ _ => false) (fun x y : nat => (y <? x)%nat) 0%nat alike 5 false 0 (Arr [Num 1%Z; Num 2%Z]) (Arr [Num 1%Z; Num 2%Z])))) < 20)%nat /\
  fst (show_diff 5 (Arr [Num 1%Z; Num 2%Z]) (Arr [Num 1%Z; Num 2%Z])) = [str "[1, 2]"].
Proof.
  split; [apply (Wr_num digits 1%Z); discriminate|]. split; [constructor|]. split; [vm_compute; reflexivity|]. split; [|vm_compute; split; [repeat constructor|reflexivity]].
  apply Sh_arr. repeat constructor; [exact digits_one|exact digits_two].
Qed.
(** at the default fold equal parts are elided: the left column is no text of the expectation *)
Theorem C40_fold_refuted : exists e a : value Z, fst (show_diff 5 e a) = [str "[ ... ]"].
Proof. exists (Arr [Str (str "0123456789012345678901234567890")]), (Arr [Str (str "0123456789012345678901234567890")]). vm_compute. reflexivity. Qed.
Print Assumptions C40_fold_refuted.
(** an array paired with an object is shown in another order *)
Theorem C40_order_refuted : exists e a : value Z, a = Arr [Str (str "s"); Str (str "t")] /\ lines_string (map (fun w => [w]) (snd (show_diff 1 e a))) = str "[""t"", ""s""]".
Proof. exists (Obj [(str "x", Str (str "t")); (str "y", Str (str "s"))]), (Arr [Str (str "s"); Str (str "t")]). split; [reflexivity|]. vm_compute. reflexivity. Qed.
Print Assumptions C40_order_refuted.
(** without case, a key may be paired with another one though its own is there *)
Theorem C40_caseless_refuted : exists e a : value Z, e = Obj [(str "A", Num 1%Z); (str "a", Num 2%Z)] /\ a = Obj [(str "a", Num 2%Z)] /\
  exists h c r, mk_dual Z digits Z.eqb (fun _ _ _ => false) nat (fun x y : nat => (y <? x)%nat) 0%nat alike 5 true 0 false (Some (O, ([], e))) (Some (O, ([], a))) = Dual h (c :: r) /\
    left_of digits c (str "A") (Num 1%Z) /\ right_of digits c (str "a") (Num 2%Z).
Proof.
  eexists _, _. split; [reflexivity|]. split; [reflexivity|]. eexists _, _, _. split; [vm_compute; reflexivity|].
  split; [constructor; try reflexivity; constructor|apply Right with (l := []); try reflexivity; constructor].
Qed.
Print Assumptions C40_caseless_refuted.
