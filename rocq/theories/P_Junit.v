(** C68: the JUnit report. *)
From Coq Require Import List NArith ZArith Bool Arith Lia.
From Verif Require Import Base RunnerModel RunnerSpec JunitModel XmlSpec JunitSpec JunitProofs JunitProofs2.
Import ListNotations.
Local Open Scope N_scope.

(** C68: the file is an XML document with the suites in order, and in each its cases in order with name, status and time, and a failure
    exactly for the failed ones, provided that names are free of quotes, ampersands, less-than signs and control characters *)
Theorem C68_reads : forall ss, Forall clean_sheet ss -> exists d, read_xml (junit ss) = Some d /\ tag d = str "testsuites" /\ Forall2 suite_shown ss (within d).
Proof. exact junit_reads. Qed.
Print Assumptions C68_reads.
(** of one round - or of several without stopping early - it says what became of every case, and has as many failures as the runner counts *)
Theorem C68_run : forall ft o body order, lists o = false -> clean_facts ft -> Forall (fun x => clean (fst x)) (turns o order) -> steady o order ->
  exists d, read_xml (junit_run ft o body order) = Some d /\
    map (attribute (str "name")) (within d) = map (fun x => Some (fst x)) (turns o order) /\
    map (fun e => length (within e)) (within d) = map (fun x => length (snd x)) (turns o order) /\
    length (flat_map snd (turns o order)) = length (visits o body order) /\
    Forall2 (fun cv e => attribute (str "name") e = Some (f_name ft (c_id (fst cv))) /\ attribute (str "status") e = Some (status_of (fst cv) (v_class (snd cv))) /\
                         (named (str "failure") (within e) <> [] <-> v_class (snd cv) = Failed))
      (combine (flat_map snd (turns o order)) (visits o body order)) (testcases d) /\
    Z.of_nat (failures d) = failed (r_stats (fst (run o body (fun n => map snd (order n))))).
Proof. exact run_ok. Qed.
Print Assumptions C68_run.

Definition C68_facts : facts := mkfacts (fun i => str "case " ++ [48 + i]) (fun i => str "a.cpp:" ++ [48 + i]) (fun _ _ => 2%nat) (fun _ i => 1003 * i).
Definition C68_order : nat -> list (bytes * list case_) := fun _ => [(str "first", [mkcase 1 false false false; mkcase 2 true false false]); (str "second", [mkcase 3 false true false; mkcase 4 false false false])].
Definition C68_body : oracle := fun _ i => (i =? 4, false).
Example C68_example : steady (mkopts 1 0 false false false) C68_order /\ clean_facts (mkfacts (fun _ => str "c") (fun _ => str "a.cpp:7") (fun _ _ => 2%nat) (fun _ i => 1003 * i)) /\
  option_map (fun d => (map (attribute (str "status")) (testcases d), map (attribute (str "time")) (testcases d), failures d)) (read_xml (junit_run C68_facts (mkopts 1 0 false false false) C68_body C68_order)) =
  Some ([Some (str "Passed"); Some (str "TODO"); Some (str "Filtered"); Some (str "Failed")], [Some (str "1.003"); Some (str "0.000"); Some (str "0.000"); Some (str "4.012")], 1%nat).
Proof.
  split; [left; split; [reflexivity|]; vm_compute; repeat constructor; cbn; intuition discriminate|].
  split; [intros i; split; apply fine_clean; reflexivity|vm_compute; reflexivity].
Qed.
(** a quote in a name makes the file unreadable *)
Theorem C68_quote_refuted : exists ss, ss = [mksheet (str "s") 0 0 0 [mkcard ([34] ++ str "x" ++ [34]) (str "a.cpp:7") false false false false false 0 0]] /\ read_xml (junit ss) = None.
Proof. eexists. split; [reflexivity|vm_compute; reflexivity]. Qed.
Print Assumptions C68_quote_refuted.
(** the numbers of failures and skipped cases of a suite are always given as zero *)
Theorem C68_zeros : forall ft o body order, clean_facts ft -> Forall (fun x => clean (fst x)) (turns o order) ->
  exists d, read_xml (junit_run ft o body order) = Some d /\ Forall (fun e => attribute (str "failures") e = Some (str "0") /\ attribute (str "skipped") e = Some (str "0")) (within d).
Proof. exact zeros. Qed.
Print Assumptions C68_zeros.
(** also of a suite with a failed case *)
Theorem C68_numbers_refuted : exists o order body, failed (r_stats (fst (run o body (fun n => map snd (order n))))) = 1%Z /\
  option_map (fun d => (failures d, map (attribute (str "failures")) (within d))) (read_xml (junit_run C68_facts o body order)) = Some (1%nat, [Some (str "0")]).
Proof. exists (mkopts 1 0 false false false), (fun _ => [(str "s", [mkcase 1 false false false])]), (fun _ _ => (true, false)). split; vm_compute; reflexivity. Qed.
Print Assumptions C68_numbers_refuted.
(** with several rounds, a case that failed and is passed over later because the run was to stop gets another failure *)
Theorem C68_stale_refuted : exists o order body, o = mkopts 2 1 false false false /\ lists o = false /\ failed (r_stats (fst (run o body (fun n => map snd (order n))))) = 1%Z /\
  option_map failures (read_xml (junit_run C68_facts o body order)) = Some 2%nat.
Proof. eexists. exists (fun _ => [(str "s", [mkcase 1 false false false])]), (fun _ _ => (true, false)). split; [reflexivity|]. split; [reflexivity|]. split; vm_compute; reflexivity. Qed.
Print Assumptions C68_stale_refuted.
(** a case to do that is filtered out has the status TODO, while the runner counts it as filtered *)
Theorem C68_todo_refuted : exists o order body, r_stats (fst (run o body (fun n => map snd (order n)))) = mkstats 0 0 0 0 1 0 /\
  option_map (fun d => map (attribute (str "status")) (testcases d)) (read_xml (junit_run C68_facts o body order)) = Some [Some (str "TODO")].
Proof. exists (mkopts 1 0 false false false), (fun _ => [(str "s", [mkcase 1 true true false])]), (fun _ _ => (false, false)). split; vm_compute; reflexivity. Qed.
Print Assumptions C68_todo_refuted.
