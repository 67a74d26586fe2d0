(** C85: JSON printed for pasting into source. *)
From Coq Require Import List NArith ZArith Bool Arith Lia.
From Verif Require Import Base FilterModel StrModel StrSpec ExprModel ExprSpec LineModel JsonModel JsonSpec PrintModel PrintSpec PasteModel PasteSpec PasteProofs PasteProofs2.
Import ListNotations.
Local Open Scope N_scope.

(** C85: with an escaped double or a single quote, what is printed of a JSON text is one string literal of C, and the text it stands for is a JSON text of the same value *)
Theorem C85_literal : forall A show refused fold q qd s v n ls, literal_quote q qd -> tree_of (evaluate A) s = Done v [] -> copyable A show qd v -> dump (evaluate A) show refused fold q s = Some ls ->
  exists t, c_value (printl (hang n ls)) = Some t /\ tree_of (evaluate A) t = Done v [].
Proof. exact literal_parses. Qed.
Print Assumptions C85_literal.
(** all lines but the last end with a backslash, all in the same column *)
Theorem C85_straight : forall num (ev : bytes -> option num) show refused fold q s v ls, tree_of ev s = Done v [] -> blank_word q = false -> dump ev show refused fold q s = Some ls ->
  exists m, forall i l, nth_error ls i = Some l -> S i <> length ls -> exists l', l = l' ++ [[92]] /\ line_width l' = Some m.
Proof. exact @straight. Qed.
Print Assumptions C85_straight.
(** a value of ASCII is always printed *)
Theorem C85_defined : forall num (ev : bytes -> option num) show refused fold q qd s v, literal_quote q qd -> tree_of ev s = Done v [] -> ascii show v -> exists ls, dump ev show refused fold q s = Some ls.
Proof. exact @ascii_dump. Qed.
Print Assumptions C85_defined.
(** so a failed comparison prints, behind expect and actual, a literal of either value *)
Theorem C85_failure : forall A show refused fold q qd first columns e a ve va out, literal_quote q qd -> tree_of (evaluate A) e = Done ve [] -> tree_of (evaluate A) a = Done va [] -> copyable A show qd ve -> copyable A show qd va ->
  (exists we wa, width e = Some we /\ width a = Some wa /\ 16 <= we /\ 16 <= wa)%nat -> print_json (evaluate A) show refused fold q first columns e a = Some out ->
  exists x y te ta, out = first ++ str "expect> " ++ x ++ str "actual> " ++ y /\ c_value x = Some te /\ c_value y = Some ta /\ tree_of (evaluate A) te = Done ve [] /\ tree_of (evaluate A) ta = Done va [].
Proof. exact failure. Qed.
Print Assumptions C85_failure.
(** nothing but the first line if one of the texts is short; two columns if no quote is asked for *)
Theorem C85_short : forall num (ev : bytes -> option num) show refused fold q first columns e a we wa, width e = Some we -> width a = Some wa -> (we < 16 \/ wa < 16)%nat -> print_json ev show refused fold q first columns e a = Some first.
Proof. exact @failure_short. Qed.
Print Assumptions C85_short.
Theorem C85_columns : forall num (ev : bytes -> option num) show refused fold first columns e a ve va we wa, width e = Some we -> width a = Some wa -> (16 <= we)%nat -> (16 <= wa)%nat ->
  tree_of ev e = Done ve [] -> tree_of ev a = Done va [] -> print_json ev show refused fold [] first columns e a = Some (first ++ columns).
Proof. exact @failure_columns. Qed.
Print Assumptions C85_columns.

(** a text that is no JSON is shown as it was refused, behind expect or actual, not in two columns, whatever the quote *)
Theorem C85_malformed : forall num (ev : bytes -> option num) show refused fold q first columns e a we wa, width e = Some we -> width a = Some wa -> (16 <= we)%nat -> (16 <= wa)%nat -> tree_of ev e = Fails \/ tree_of ev a = Fails ->
  forall el al, dump ev show refused fold q e = Some el -> dump ev show refused fold q a = Some al ->
  print_json ev show refused fold q first columns e a = Some (first ++ str "expect> " ++ printl (hang 8 el) ++ str "actual> " ++ printl (hang 8 al)) /\
  (tree_of ev e = Fails -> printl (hang 8 el) = text (refused e) ++ [10]) /\ (tree_of ev a = Fails -> printl (hang 8 al) = text (refused a) ++ [10]).
Proof. exact @failure_malformed. Qed.
Print Assumptions C85_malformed.

Definition digits (z : Z) : bytes := if Z.eqb z 1 then str "1" else str "2".
Lemma digits_one : json_number ints 1%Z (digits 1%Z).
Proof. exists (str "1"). split; [|left; split; reflexivity]. exists (str "1"), [], []. repeat split; [repeat constructor; vm_compute; discriminate|left; reflexivity|left; reflexivity|left; discriminate]. Qed.
Definition doc : value Z := Obj [(str "a", Arr [Num 1%Z; Null; Bool true]); (str "b", Obj [(str "c", Str (str "x y")); (str "d", Pat (str "z*"))])].
Definition doc_text : bytes := str "{""a"":[1,null,true],'b':{c:""x y"",d:/z*/}}".
Lemma doc_copyable qd : qd = 34 \/ qd = 39 -> copyable ints digits qd doc.
Proof.
  intro Q. assert (P : forall s, forallb (fun c => (48 <? c) && (c <? 91) || (94 <? c) && (c <? 128) || (c =? 32) || (c =? 42)) s = true -> Forall (plain qd) s /\ Forall (plain 47) s).
  { intros s H. rewrite forallb_forall in H. split; apply Forall_forall; intros c I; specialize (H c I); unfold plain; rewrite !orb_true_iff, !andb_true_iff, !N.ltb_lt, !N.eqb_eq in H; lia. }
  apply Cp_obj. constructor; [|constructor; [|constructor]]; (split; [discriminate|split; [apply P; reflexivity|]]).
  - apply Cp_arr. repeat constructor. exact digits_one.
  - apply Cp_obj. constructor; [|constructor; [|constructor]]; (split; [discriminate|split; [apply P; reflexivity|]]); [apply Cp_str|apply Cp_pat]; apply P; reflexivity.
Qed.
Definition nothing (s : bytes) : line := [s].
Example C85_example : tree_of (evaluate ints) doc_text = Done doc [] /\ copyable ints digits 34 doc /\ copyable ints digits 39 doc /\ ascii digits doc /\
  (exists ls t, dump (evaluate ints) digits nothing true [92; 34] doc_text = Some ls /\ length ls = 7%nat /\ c_value (printl (hang 8 ls)) = Some t /\ tree_of (evaluate ints) t = Done doc []) /\
  (exists ls t, dump (evaluate ints) digits nothing false [39] doc_text = Some ls /\ length ls = 11%nat /\ c_value (printl (hang 8 ls)) = Some t /\ tree_of (evaluate ints) t = Done doc []).
Proof.
  split; [vm_compute; reflexivity|]. split; [apply doc_copyable; auto|]. split; [apply doc_copyable; auto|]. split; [|split].
  - repeat constructor.
  - eexists. eexists. split; [vm_compute; reflexivity|]. split; [reflexivity|]. split; [vm_compute; reflexivity|vm_compute; reflexivity].
  - eexists. eexists. split; [vm_compute; reflexivity|]. split; [reflexivity|]. split; [vm_compute; reflexivity|vm_compute; reflexivity].
Qed.
Example C85_straight_example : dump (evaluate ints) digits nothing false [92; 34] (str "[1,{""a"":2}]") =
  Some [[[34]; str "["; repeat 32 13; [92]]; [repeat 32 2; str "1"; str ", "; repeat 32 10; [92]]; [repeat 32 2; str "{"; repeat 32 12; [92]];
        [repeat 32 4; str "\""a\"": "; str "2"; repeat 32 3; [92]] ; [repeat 32 2; str "}"; repeat 32 12; [92]]; [str "]"; [34]; repeat 32 13]].
Proof. vm_compute. reflexivity. Qed.
Example C85_malformed_example : width (str "[1, 2, ""a long text""") = Some 20%nat /\ tree_of (evaluate ints) (str "[1, 2, ""a long text""") = Fails /\
  print_json (evaluate ints) digits (fun s => [str "refused " ++ s]) true [] (str "not equal" ++ [10]) (str "columns") (str "[1, 2, ""a long text""") (str "[1, 2, ""a long text""]") =
  Some (str "not equal" ++ [10] ++ str "expect> refused [1, 2, ""a long text""" ++ [10] ++ str "actual> [1, 2, a long text]" ++ [10]).
Proof. vm_compute. auto. Qed.
Example C85_failure_example : exists out x y, print_json (evaluate ints) digits nothing true [39] (str "not equal" ++ [10]) (str "columns") doc_text (str "[1, 2, ""a long text""]") = Some out /\
  out = str "not equal" ++ [10] ++ str "expect> " ++ x ++ str "actual> " ++ y /\ c_value y = Some (str "[1, 2, 'a long text']") /\
  print_json (evaluate ints) digits nothing true [39] (str "not equal") (str "columns") doc_text (str "[1, 2]") = Some (str "not equal") /\
  print_json (evaluate ints) digits nothing true [] (str "not equal") (str "columns") doc_text doc_text = Some (str "not equalcolumns").
Proof.
  eexists. exists (printl (hang 8 (match dump (evaluate ints) digits nothing true [39] doc_text with Some l => l | None => [] end))).
  exists (printl (hang 8 (match dump (evaluate ints) digits nothing true [39] (str "[1, 2, ""a long text""]") with Some l => l | None => [] end))).
  split; [vm_compute; reflexivity|]. split; [vm_compute; reflexivity|]. split; [vm_compute; reflexivity|]. split; [vm_compute; reflexivity|vm_compute; reflexivity].
Qed.

(** with the option's double quote the quotes inside are bare and end the literal *)
Theorem C85_double_refuted : exists ls, dump (evaluate ints) digits nothing true [34] (str "[""a""]") = Some ls /\ printl ls = str """[""a""]""   " ++ [10] /\ c_value (printl ls) = None.
Proof. eexists. split; [vm_compute; reflexivity|]. split; [vm_compute; reflexivity|vm_compute; reflexivity]. Qed.
Print Assumptions C85_double_refuted.
(** a backslash or a newline in a string is printed as it is: no literal *)
Theorem C85_backslash_refuted : exists (s s' : bytes) ls ls', tree_of (evaluate ints) s = Done (Str (str "C:\data")) [] /\ dump (evaluate ints) digits nothing true [92; 34] s = Some ls /\ c_value (printl ls) = None /\
  tree_of (evaluate ints) s' = Done (Str (str "a" ++ [10] ++ str "b")) [] /\ dump (evaluate ints) digits nothing true [92; 34] s' = Some ls' /\ c_value (printl ls') = None.
Proof.
  exists (str """C:\data"""), (str """a\nb"""). eexists. eexists. split; [vm_compute; reflexivity|]. split; [vm_compute; reflexivity|]. split; [vm_compute; reflexivity|].
  split; [vm_compute; reflexivity|]. split; [vm_compute; reflexivity|vm_compute; reflexivity].
Qed.
Print Assumptions C85_backslash_refuted.
(** without a quote, what is shown of different values is the same *)
Theorem C85_default_refuted : exists (s t : bytes) (v w : value Z) ls, tree_of (evaluate ints) s = Done v [] /\ tree_of (evaluate ints) t = Done w [] /\ v <> w /\
  dump (evaluate ints) digits nothing true [] s = Some ls /\ dump (evaluate ints) digits nothing true [] t = Some ls.
Proof. exists (str "{""a"":""1""}"), (str "{""a"":1}"). eexists. eexists. eexists. split; [vm_compute; reflexivity|]. split; [vm_compute; reflexivity|]. split; [discriminate|]. split; [vm_compute; reflexivity|vm_compute; reflexivity]. Qed.
Print Assumptions C85_default_refuted.
