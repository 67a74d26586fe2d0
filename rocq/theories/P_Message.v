(** C74: the line of a failed check shows what was checked, what was expected and what it was. *)
From Coq Require Import List NArith Bool Arith Lia.
From Verif Require Import Base LineModel LineSpec StrdiffSpec JunitSpec ListingSpec MessageModel MessageSpec MessageProofs MessageProofs2.
Import ListNotations.
Local Open Scope N_scope.

(** checks of two operands *)
Theorem C74_two : forall (detail : bool) ci u t, (u_type u = TOK2 /\ t = str "OK") \/ (u_type u = TKO2 /\ t = str "KO") ->
  ~ In 27 (u_op u) -> unobtrusive (u_explain u) (u_user u) (u_filine u) ->
  wholesome (if detail then most else 120%nat) (u_e u) -> whole_value most (u_expection u) ->
  (u_a u = [] -> ~ void (u_represent u)) -> (u_a u <> [] -> wholesome (if detail then most else 120%nat) (u_a u)) -> whole_value most (u_represent u) ->
  exists m e a r, message detail ci u = Some m /\ behind_line [] m = [] /\
    ink [] m = letters [] (repeat 32 (2 * ci + 1) ++ t) ++ grayed [] (str "(") ++ e ++ letters [] (str " " ++ u_op u ++ str " ") ++ a ++ grayed [] (str ")") ++ r /\
    shows_expected most (if detail then most else 120%nat) (u_e u) (u_expection u) e /\
    shows_actual most (if detail then most else 120%nat) (u_a u) (u_represent u) a /\
    shows_rest false (u_explain u) (u_user u) (u_filine u) r.
Proof. exact two_sides. Qed.
Print Assumptions C74_two.
Definition C74_u2 := mkunexpect TOK2 (str "==") (str """one""") (str "f(x)") [str "one"] [str "two"] [str "strings differ"] (str "in round 3") None (str "src/a.cpp:7").
Example C74_two_example :
  wholesome 120 (u_e C74_u2) /\ wholesome 120 (u_a C74_u2) /\ whole_value most (u_expection C74_u2) /\ whole_value most (u_represent C74_u2) /\
  unobtrusive (u_explain C74_u2) (u_user C74_u2) (u_filine C74_u2) /\
  option_map (ink []) (message false 0 C74_u2) =
  Some (letters [] (str " OK") ++ grayed [] (str "(") ++ grayed cyan (str """") ++ letters cyan (str "one") ++ grayed cyan (str """") ++ grayed [] to_right ++ letters green (str "one") ++
        letters [] (str " == ") ++ letters red (str "two") ++ grayed [] to_left ++ letters cyan (str "f(x)") ++ grayed [] (str ")") ++
        letters [] (str " strings differ, in round 3") ++ grayed [] (str " at ") ++ letters [] (str "a.cpp:7")).
Proof.
  split; [apply ascii_wholesome; [discriminate|reflexivity]|]. split; [apply ascii_wholesome; [discriminate|reflexivity]|]. split; [apply ascii_value; reflexivity|]. split; [apply ascii_value; reflexivity|].
  split; [split; [reflexivity|]; split; [apply ascii_proper; reflexivity|]; split; cbn; intuition discriminate|]. vm_compute. reflexivity.
Qed.
Example C74_tells_example :
  tells (str "nullptr") (str "(nil)") /\ tells (str "ListOf(1, 2)") (str "[1, 2]") /\
  option_map spoken (message false 1 (mkunexpect TKO2 (str "!=") (str "nullptr") (str "p") [str "(nil)"] [str "0x10"] [] [] None [])) = Some (str "   KO(nullptr != 0x10" ++ to_left ++ str "p)").
Proof.
  split; [apply (t_words null_words); cbn; auto 20|]. split; [apply (t_list (str "1, 2"))|vm_compute; reflexivity].
Qed.

(** checks of one operand *)
Theorem C74_one : forall detail ci u t, (u_type u = TOK1 /\ t = str "OK") \/ (u_type u = TKO1 /\ t = str "KO") ->
  unobtrusive (u_explain u) (u_user u) (u_filine u) -> legible (u_a u) -> whole_value most (u_represent u) -> ~ void (u_represent u) ->
  exists m v r, message detail ci u = Some m /\ behind_line [] m = [] /\
    ink [] m = letters [] (repeat 32 (2 * ci + 1) ++ t) ++ grayed [] (str "(") ++ quoted (letters cyan (u_a u)) ++ grayed [] (str ")") ++ v ++ r /\
    (tells (spelled (u_a u)) (spelled (spoken (u_represent u))) -> v = []) /\
    (~ tells (spelled (u_a u)) (spelled (spoken (u_represent u))) -> exists x, shown_value most red (u_represent u) x /\ v = letters [] (str " is ") ++ x) /\
    shows_rest false (u_explain u) (u_user u) (u_filine u) r.
Proof. exact one_side. Qed.
Print Assumptions C74_one.
Definition C74_u1 := mkunexpect TOK1 [] [] (str "a && b") [] [str "false"] [] [] None (str "a.cpp:8").
Example C74_one_example : legible (u_a C74_u1) /\ whole_value most (u_represent C74_u1) /\ ~ void (u_represent C74_u1) /\ unobtrusive (u_explain C74_u1) (u_user C74_u1) (u_filine C74_u1) /\
  option_map (ink []) (message false 0 C74_u1) =
  Some (letters [] (str " OK") ++ grayed [] (str "(") ++ letters cyan (str "a && b") ++ grayed [] (str ")") ++ letters [] (str " is ") ++ letters red (str "false") ++ grayed [] (str " at ") ++ letters [] (str "a.cpp:8")).
Proof.
  split; [apply ascii_legible; [discriminate|reflexivity]|]. split; [apply ascii_value; reflexivity|]. split; [discriminate|].
  split; [split; [reflexivity|]; split; [exists []; constructor|]; split; cbn; intuition discriminate|]. vm_compute. reflexivity.
Qed.

(** comparisons of JSON *)
Theorem C74_json : forall (detail : bool) ci u e a, u_type u = TJE -> unobtrusive (u_explain u) (u_user u) (u_filine u) ->
  json_fine (if detail then most else 30%nat) (u_e u) e -> json_fine (if detail then most else 30%nat) (u_a u) a ->
  exists m x y r, message detail ci u = Some m /\ behind_line [] m = [] /\
    ink [] m = letters [] (repeat 32 (2 * ci + 1) ++ str "JE") ++ grayed [] (str "(") ++ x ++ letters [] (str ", ") ++ y ++ grayed [] (str ")") ++ r /\
    shown (if detail then most else 30%nat) 2 cyan e x /\ shown (if detail then most else 30%nat) 2 red a y /\
    shows_rest false (u_explain u) (u_user u) (u_filine u) r.
Proof. exact json_message. Qed.
Print Assumptions C74_json.
Definition C74_uj := mkunexpect TJE [] (str """'{a: [1, 2, 3, 4, 5, 6, 7, 8, 9, 10]}'""") (str "text") [] [] [] [] None [].
Example C74_json_example : json_fine 30 (u_e C74_uj) (str "{a: [1, 2, 3, 4, 5, 6, 7, 8, 9, 10]}") /\ json_fine 30 (u_a C74_uj) (str "text") /\
  option_map (ink []) (message false 0 C74_uj) =
  Some (letters [] (str " JE") ++ grayed [] (str "(") ++ letters cyan (str "{a: [1, 2, 3, 4, 5, 6, 7,") ++ grayed cyan (str "...") ++ letters cyan (str "]}") ++ letters [] (str ", ") ++ letters red (str "text") ++ grayed [] (str ")")).
Proof.
  split; [|split].
  - split; [discriminate|]. split; [discriminate|]. exists (str "'{a: [1, 2, 3, 4, 5, 6, 7, 8, 9, 10]}'"). split; [left; reflexivity|]. split; [discriminate|]. split; [discriminate|]. split; [left; reflexivity|].
    assert (P : Forall plain (str "{a: [1, 2, 3, 4, 5, 6, 7, 8, 9, 10]}")) by (apply ascii_plain; reflexivity). split; [apply plain_calm, P|right; exact P].
  - assert (P : Forall plain (str "text")) by (apply ascii_plain; reflexivity).
    split; [discriminate|]. split; [discriminate|]. exists (str "text"). split; [right; split; [reflexivity|intros (x & K); discriminate K]|]. split; [discriminate|]. split; [discriminate|]. split; [right; split; [reflexivity|intros (x & K); discriminate K]|]. split; [apply plain_calm, P|right; exact P].
  - vm_compute. reflexivity.
Qed.

(** inner failures: a number and the values *)
Theorem C74_inner : forall (detail : bool) ci u, u_type u = TIn -> unobtrusive (u_explain u) (u_user u) (u_filine u) ->
  whole_value (if detail then most else 120%nat) (u_expection u) -> whole_value (if detail then most else 120%nat) (u_represent u) ->
  exists m n v r, message detail ci u = Some m /\ behind_line [] m = [] /\ ink [] m = letters [] (repeat 32 (2 * ci + 1)) ++ n ++ v ++ r /\
    shows_number (u_seqno u) n /\ shows_values (if detail then most else 120%nat) (u_expection u) (u_represent u) v /\
    shows_rest (match v with [] => false | _ => true end) (u_explain u) (u_user u) (u_filine u) r.
Proof. exact inner_message. Qed.
Print Assumptions C74_inner.
Definition C74_ui := mkunexpect TIn [] [] [] [str "5"] [str "6"] [str "differs"] [] (Some 12) [].
Example C74_inner_example : whole_value 120 (u_expection C74_ui) /\ whole_value 120 (u_represent C74_ui) /\ unobtrusive (u_explain C74_ui) (u_user C74_ui) (u_filine C74_ui) /\
  option_map (ink []) (message false 1 C74_ui) =
  Some (letters [] (str "   ") ++ grayed [] (str "12. ") ++ letters [] (str "expect is ") ++ letters green (str "5") ++ letters [] (str ", actual is ") ++ letters red (str "6") ++ letters [] (str ", differs")).
Proof.
  split; [apply ascii_value; reflexivity|]. split; [apply ascii_value; reflexivity|].
  split; [split; [reflexivity|]; split; [apply ascii_proper; reflexivity|]; split; cbn; intuition discriminate|]. vm_compute. reflexivity.
Qed.

(** other failures: a number, the explanation and the place *)
Theorem C74_normal : forall ci n explain filine, closed explain -> ~ In 27 filine ->
  exists no z, ink [] (normal_message ci n explain filine) = letters [] (repeat 32 (2 * ci + 1)) ++ no ++ ink [] explain ++ z /\
    behind_line [] (normal_message ci n explain filine) = [] /\ shows_number n no /\ shows_place filine z.
Proof. exact normal_ok. Qed.
Print Assumptions C74_normal.
Example C74_normal_example : closed (brush (str "red") [str "bad"]) /\
  ink [] (normal_message 2 (Some 3) (brush (str "red") [str "bad"]) (str "/home/u/b.cpp:30")) =
  letters [] (str "     ") ++ grayed [] (str "3. ") ++ letters [str "red"] (str "bad") ++ grayed [] (str " at ") ++ letters [] (str "b.cpp:30").
Proof. split; vm_compute; reflexivity. Qed.

(** refuted: without an expression for the expected side the line cannot be made; C73 gives such a failure *)
Theorem C74_empty_refuted : exists u, u_type u = TOK2 /\ u_e u = [] /\ wholesome 120 (u_a u) /\ whole_value most (u_expection u) /\ whole_value most (u_represent u) /\
  unobtrusive (u_explain u) (u_user u) (u_filine u) /\ message false 0 u = None.
Proof.
  exists (mkunexpect TOK2 (str "<") [] (str "3 < p->x") [str "3"] [str "2"] [] [] None []). split; [reflexivity|]. split; [reflexivity|]. split; [apply ascii_wholesome; [discriminate|reflexivity]|].
  split; [apply ascii_value; reflexivity|]. split; [apply ascii_value; reflexivity|]. split; [split; [reflexivity|]; split; [exists []; constructor|]; split; cbn; intuition discriminate|]. vm_compute. reflexivity.
Qed.
Print Assumptions C74_empty_refuted.
(** refuted: nor with an empty JSON text, nor with a single quote *)
Theorem C74_json_refuted : exists u v, u_type u = TJE /\ u_e u = str """""" /\ wholesome 30 (u_a u) /\ unobtrusive (u_explain u) (u_user u) (u_filine u) /\ message false 0 u = None /\
  u_type v = TJE /\ u_e v = str """'""" /\ wholesome 30 (u_a v) /\ unobtrusive (u_explain v) (u_user v) (u_filine v) /\ message false 0 v = None.
Proof.
  exists (mkunexpect TJE [] (str """""") (str "text") [] [] [] [] None []), (mkunexpect TJE [] (str """'""") (str "text") [] [] [] [] None []).
  assert (U : unobtrusive [] [] []) by (split; [reflexivity|]; split; [exists []; constructor|]; split; intros []).
  assert (A : wholesome 30 (str "text")) by (apply ascii_wholesome; [discriminate|reflexivity]). repeat (split; [first [reflexivity|exact A|exact U]|]). reflexivity.
Qed.
Print Assumptions C74_json_refuted.
