(** The Je matcher and the JE assertion. *)
From Coq Require Import List NArith ZArith Bool Arith Lia.
From Verif Require Import Base StrModel ExprModel ExprSpec JsonModel JsonSpec PrintModel PrintSpec PrintProofs MatcherModel JeModel JeSpec JeProofs.
Import ListNotations.
Local Open Scope N_scope.

(** C95: two documents, no selector: accepted exactly if the expectation is met, the other way round if turned an odd number of times *)
Theorem C95_whole : forall A show near pat fold m cl ve va a, case_of m cl -> place m = [] -> document A ve (expectation m) -> document A va a ->
  decided m (meets (R A) near pat cl ve va) (jmatches (R A) (evaluate A) show near pat fold m ctx0 a).
Proof. exact whole_document. Qed.
Print Assumptions C95_whole.
(** with a selector it is the selected part the expectation is for *)
Theorem C95_part : forall A show near pat fold m cl l ve va w a, case_of m cl -> path_text l (place m) -> document A ve (expectation m) -> document A va a -> path cl va l w -> showable A show w ->
  decided m (meets (R A) near pat cl ve w) (jmatches (R A) (evaluate A) show near pat fold m ctx0 a).
Proof. exact part_document. Qed.
Print Assumptions C95_part.
(** a selector that leads nowhere in its last step: no expectation is met *)
Theorem C95_missing : forall A show near pat fold m cl l s u ve va a, case_of m cl -> path_text (l ++ [s]) (place m) -> document A ve (expectation m) -> document A va a -> path cl va l u ->
  (forall w, ~ stepped cl u s w) -> decided m False (jmatches (R A) (evaluate A) show near pat fold m ctx0 a).
Proof. exact missing_part. Qed.
Print Assumptions C95_missing.
(** in an earlier one: the test does not survive it *)
Theorem C95_null : forall A show near pat fold m cl l s q u va a, case_of m cl -> path_text (l ++ s :: q) (place m) -> q <> [] -> document A va a -> path cl va l u ->
  (forall w, ~ stepped cl u s w) -> jmatches (R A) (evaluate A) show near pat fold m ctx0 a = Segfault.
Proof. exact missing_early. Qed.
Print Assumptions C95_null.
(** an ill-formed text is never accepted, however turned, and said to be ill-formed *)
Theorem C95_doubled : forall A show near pat fold m ve a, document A ve (expectation m) -> doubled A a -> jmatches (R A) (evaluate A) show near pat fold m ctx0 a = Refused true.
Proof. exact ill_formed. Qed.
Print Assumptions C95_doubled.
Theorem C95_doubled_expectation : forall A show near pat fold m va a, place m = [] -> document A va a -> doubled A (expectation m) ->
  jmatches (R A) (evaluate A) show near pat fold m ctx0 a = Refused true.
Proof. exact ill_expected. Qed.
Print Assumptions C95_doubled_expectation.
Theorem C95_unclosed : forall A show near pat fold m ve a, document A ve (expectation m) -> unclosed a ->
  jmatches (R A) (evaluate A) show near pat fold m ctx0 a = Refused true \/ jmatches (R A) (evaluate A) show near pat fold m ctx0 a = Exception_.
Proof. exact unclosed_never. Qed.
Print Assumptions C95_unclosed.
(** OK holds if the matcher accepts, KO if it refuses *)
Theorem C95_asserted : forall A show near pat fold oppose m a, asserted (R A) (evaluate A) show near pat fold oppose m a =
  match jmatches (R A) (evaluate A) show near pat fold m ctx0 a with Accepted => Some (negb oppose) | Refused _ => Some oppose | Exception_ | Segfault => None end.
Proof. exact asserted_spec. Qed.
Print Assumptions C95_asserted.

(** the assertion JE(expect, actual, selector) holds exactly if the selected part meets the expectation *)
Theorem C95_assertion : forall A show near pat fold l e selector ve va w a, path_text l selector -> document A ve e -> document A va a -> path false va l w -> showable A show w ->
  exists b, assert_je (R A) (evaluate A) show near pat fold e a selector = Some b /\ (b = true <-> meets (R A) near pat false ve w).
Proof. exact je_macro. Qed.
Print Assumptions C95_assertion.

Definition digits (z : Z) : bytes := if Z.eqb z 1 then str "1" else str "0".
Definition sample : value Z := Obj [(str "a", Arr [Num 1%Z; Null]); (str "B", Str (str "Xy"))].
(* on several lines: an object with "a": [1, null] and "B": "Xy" *)
Definition sample_text : bytes := str "{" ++ [10] ++ str "  ""a"": [1, null], " ++ [10] ++ str "  ""B"": ""Xy""" ++ [10] ++ str "}" ++ [10].
Definition say (m : jmatcher) (a : bytes) : verdict := jmatches Z (evaluate ints) digits Z.eqb (fun _ p s => if list_eq_dec N.eq_dec p s then true else false) true m ctx0 a.
Lemma one_shown : json_number ints 1%Z (str "1").
Proof. exists (str "1"). split; [|left; split; reflexivity]. exists (str "1"), [], []. repeat split; [repeat constructor; vm_compute; discriminate|left; reflexivity|left; reflexivity|left; discriminate]. Qed.
Lemma sample_showable : showable ints digits sample.
Proof.
  apply Sh_obj. repeat (constructor; [split; [discriminate|split; [repeat constructor; vm_compute; discriminate|]]|]); [| |constructor].
  - apply Sh_arr. repeat constructor. exact one_shown.
  - apply Sh_str. repeat constructor; vm_compute; discriminate.
Qed.
Lemma sample_document : document ints sample sample_text.
Proof. pose proof (format_shown ints digits true sample sample_showable) as H. replace sample_text with (shown (format digits true [34] 0 false [] sample)) by (vm_compute; reflexivity). exact H. Qed.
Lemma one_document : document ints (Num 1%Z) (str "1").
Proof. exists [], (str "1"), []. split; [constructor|]. split; [constructor|]. split; [|reflexivity]. apply T_num, JsonProofs2.json_number_text, one_shown. Qed.
Lemma place_text : path_text [Key (str "a"); Index 0] (str ".a[0]").
Proof.
  assert (W0 : ws []) by constructor. change (str ".a[0]") with ((46 :: [] ++ str "a" ++ []) ++ (91 :: [] ++ str "0" ++ [] ++ [93]) ++ []).
  repeat apply Pt_step; [| |apply Pt_nil].
  - apply St_dot; auto; [|repeat constructor; discriminate]. split; [discriminate|]. split.
    + intros c r E. injection E as <- _. lia.
    + intros c r E. destruct r as [|x [|y r]]; [injection E as <-; lia|discriminate|discriminate].
  - apply St_index; auto. apply (Dec_one 48); lia.
Qed.
Example C95_part_ex :
  case_of (Je (str "1") (str ".a[0]")) false /\ path_text [Key (str "a"); Index 0] (str ".a[0]") /\ document ints (Num 1%Z) (str "1") /\ document ints sample sample_text /\
  path false sample [Key (str "a"); Index 0] (Num 1%Z) /\ showable ints digits (Num 1%Z) /\
  say (Je (str "1") (str ".a[0]")) sample_text = Accepted /\ say (Operated [OpNot] (Je (str "1") (str ".a[0]"))) sample_text = Refused false /\
  say (Not_ (Operated [OpNot] (Je (str "1") (str ".a[0]")))) sample_text = Accepted /\ say (Je (str "1") (str ".a[1]")) sample_text = Refused false.
Proof.
  split; [split; [discriminate|contradiction]|]. split; [exact place_text|]. split; [exact one_document|]. split; [exact sample_document|].
  split.
  { eapply Path_step with (w := Arr [Num 1%Z; Null]); [exists [], (str "a"), [(str "B", Str (str "Xy"))]; repeat split; constructor|].
    eapply Path_step with (w := Num 1%Z); [exists [], [Null]; split; [reflexivity|left; reflexivity]|constructor]. }
  split; [constructor; exact one_shown|]. vm_compute. auto.
Qed.
Example C95_whole_ex :
  say (Je (str "{'a': [1, null]}") []) sample_text = Accepted /\ say (Je (str "{'b': 'xY'}") []) sample_text = Refused false /\
  say (Operated [OpCaseless] (Je (str "{'b': 'xY'}") [])) sample_text = Accepted /\ say (Operated [OpCaseless; OpNot] (Je (str "{'b': 'xY'}") [])) sample_text = Refused false /\
  say (Operated [OpCaseless] (Je (str "'xy'") (str ".b"))) sample_text = Accepted.
Proof. vm_compute. auto. Qed.
Example C95_missing_ex :
  say (Je (str "null") (str ".c")) sample_text = Refused false /\ say (Operated [OpNot] (Je (str "null") (str ".c"))) sample_text = Accepted /\ say (Je (str "null") (str ".c.d")) sample_text = Segfault.
Proof. vm_compute. auto. Qed.
Example C95_illformed_ex : doubled ints (str "null []") /\ unclosed (str "[1, 2") /\
  say (Je (str "1") []) (str "null []") = Refused true /\ say (Operated [OpNot] (Je (str "1") [])) (str "null []") = Refused true /\ say (Operated [OpNot] (Je (str "1") (str ".a"))) (str "[1, 2") = Refused true /\
  say (Je (str "null []") []) (str "1") = Refused true.
Proof.
  assert (W0 : ws []) by constructor. assert (W1 : ws (str " ")) by (constructor; [left; reflexivity|constructor]).
  split. { exists Null, (str "null"), [], (str " "), (Arr []), (str "[]"), []. repeat (split; [first [exact W0|exact W1|apply T_null|apply (T_empty_arr ints []); exact W0|left; eauto]|]). reflexivity. }
  split; [apply (Un_array [] (str "1, 2")); [exact W0| |]; vm_compute; intuition discriminate|]. vm_compute. auto.
Qed.
(** KO does not mean what OK of the opposite means: an ill-formed text passes KO although it passes neither Je nor its opposite *)
Theorem C95_ko_refuted : exists m a, doubled ints a /\ document ints (Num 1%Z) (expectation m) /\
  asserted Z (evaluate ints) digits Z.eqb (fun _ p s => if list_eq_dec N.eq_dec p s then true else false) true true m a = Some true /\
  asserted Z (evaluate ints) digits Z.eqb (fun _ p s => if list_eq_dec N.eq_dec p s then true else false) true false m a = Some false /\ asserted Z (evaluate ints) digits Z.eqb (fun _ p s => if list_eq_dec N.eq_dec p s then true else false) true false (Not_ m) a = Some false.
Proof. exists (Je (str "1") []), (str "null []"). split; [exact (proj1 C95_illformed_ex)|]. split; [exact one_document|]. vm_compute. auto. Qed.
Print Assumptions C95_ko_refuted.
(** a selected string with a quote inside is not what it is expected to be: it is printed and read again *)
Theorem C95_quote_refuted : exists s a w, say (Je s (str ".k")) a = Refused false /\ say (Je s []) s = Accepted /\ tree_of (evaluate ints) a = Done (Obj [(str "k", w)]) [] /\
  tree_of (evaluate ints) s = Done w [].
Proof. exists (str "['a"",""b']"), (str "{'k': ['a"",""b']}"), (Arr [Str (str "a"",""b")]). split; [vm_compute; reflexivity|]. split; [vm_compute; reflexivity|]. split; vm_compute; reflexivity. Qed.
Print Assumptions C95_quote_refuted.
(** an empty text is no ill-formed one: nothing meets it and so everything passes its opposite *)
Theorem C95_empty_refuted : exists a, say (Je [] []) a = Refused false /\ say (Operated [OpNot] (Je [] [])) a = Accepted /\ say (Operated [OpNot] (Je a [])) [] = Accepted.
Proof. exists sample_text. vm_compute. auto. Qed.
Print Assumptions C95_empty_refuted.
