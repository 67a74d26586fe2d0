(** C86: what mocks report. *)
From Coq Require Import List NArith ZArith Bool Arith.
From Verif Require Import Base JunitSpec MessageModel MessageSpec MockModel ValueModel ValueSpec MockmsgModel MockmsgSpec MockmsgProofs MockmsgProofs2.
Import ListNotations.
Local Open Scope N_scope.

(** at the end of a case: one line for each expectation that was not met, and no other *)
Theorem C86_check : forall f es, fine f -> Forall (fun p => sensible (fst p) /\ (0 <= snd p <= unlimited)%Z) es ->
  exists l, broken 0 es l /\ (l = [] -> check f es = None) /\
    (l <> [] -> exists n first rest, check f es = Some n /\ printed 0 n = first :: rest /\ headed f first /\ Forall2 (reported (f_name f) (length es)) l rest).
Proof. exact check_ok. Qed.
Print Assumptions C86_check.
Example C86_check_example : fine sample /\ Forall (fun p => sensible (fst p) /\ (0 <= snd p <= unlimited)%Z) expectations /\
  broken 0 expectations [(1, (Between 2 4, 5%Z)); (3, (Atleast 3, 0%Z))] /\
  option_map (fun n => map visible (printed 0 n)) (check sample expectations) =
    Some [str " MOCK<int foobar(int, const char*, double)> at t.cpp:12";
          str "   1. foobar() expected between 2 and 4 times but actually 5 times called when 2nd Between";
          str "   3. foobar() expected at least 3 times but actually never called when 4th Atleast"].
Proof. exact check_example. Qed.

(** arguments that were refused: each is numbered, its type is marked in the signature, the expectation is told *)
Theorem C86_argument : forall f total i b fs l, fine f -> rejected 0 fs l -> exists s p ks, failing f total i (kind b) fs = Note None s p ks /\ headed f (normal_message 0 None s p) /\
  Forall2 (fun r n => let '(j, Note _ e q k) := r in exists x k', n = Note (Some j) (e ++ x) q k' /\ length k' = length k /\ explains f total i j (word b) x) l ks.
Proof. exact failing_ok. Qed.
Print Assumptions C86_argument.
Example C86_argument_example : fine sample /\ rejected 0 refusal [(1, Note None [str "expected "] [] []); (2, Note None [] (str "x.cpp:1") [])] /\
  match failing sample 3 1 (kind Any) refusal with
  | Note _ _ _ [Note s1 x1 _ _; Note s2 x2 _ _] => s1 = Some 1 /\ s2 = Some 2 /\ visible x1 = str "expected on foobar(int, const char*, double) when 2nd Any" /\
      ink [] x2 = grayed [] (str "on ") ++ letters [] (str "foobar") ++ grayed [] (str "(") ++ letters [[]] (str "int") ++ grayed [] (str ", ") ++ letters [[]] (str "const char*") ++ grayed [] (str ", ") ++
        letters [str "red"; str "bold"] (str "double") ++ grayed [] (str ")") ++ grayed [] (str " when ") ++ letters [] (str "2nd ") ++ letters [str "cyan"] (str "Any")
  | _ => False
  end.
Proof. exact failing_example. Qed.
(** below the top, the numbers are those of the parts of a matcher, so that another argument may be marked *)
Theorem C86_nested_refuted : exists f fs x, fine f /\ (exists s e p q y, failing f 1 0 (kind Any) fs = Note None s p [Note (Some 1) e q [Note (Some 0) x y []]]) /\
  rejected 0 fs [(1, Note None [] [] [Note (Some 0) [] [] []])] /\ explains f 1 0 0 (word Any) x /\ ~ explains f 1 0 1 (word Any) x.
Proof. exact nested_bad. Qed.
Print Assumptions C86_nested_refuted.

(** calls that nothing expects are shown with their arguments *)
Theorem C86_unexpected : forall f args, fine f -> quiet (VTuple args) ->
  exists first second o, printed 0 (unexpected f args) = [first; second] /\ headed f first /\ shown [] true (VTuple args) o /\ closed second /\
    ink [] second = letters [] (str "   " ++ f_name f) ++ o ++ letters [str "red"; str "bold"] (str " unexpectedly") ++ letters [] (str " called").
Proof. exact unexpected_ok. Qed.
Print Assumptions C86_unexpected.
Example C86_unexpected_example : fine sample /\ quiet (VTuple [VInt 4; VText (str "abc"); VBool true]) /\
  map visible (printed 0 (unexpected sample [VInt 4; VText (str "abc"); VBool true])) =
    [str " MOCK<int foobar(int, const char*, double)> at t.cpp:12"; str "   foobar(4, " ++ [34] ++ str "abc" ++ [34] ++ str ", true) unexpectedly called"].
Proof. exact unexpected_example. Qed.

(** the first twenty are numbered as in English; the twenty-first is not *)
Theorem C86_ordinal : forall i, i < 20 -> exists d, decimal d (i + 1) /\ index_th i = d ++ suffix (i + 1).
Proof. exact ordinal_good. Qed.
Print Assumptions C86_ordinal.
Example C86_ordinal_example : index_th 2 = str "3rd" /\ index_th 10 = str "11th" /\ index_th 18 = str "19th".
Proof. split; [vm_compute; reflexivity|]. split; [vm_compute; reflexivity|vm_compute; reflexivity]. Qed.
Theorem C86_ordinal_refuted : exists i, index_th i = str "21th" /\ str "21" ++ suffix (i + 1) = str "21st".
Proof. exact ordinal_bad. Qed.
Print Assumptions C86_ordinal_refuted.
