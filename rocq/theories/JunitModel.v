(** Model of the JUnit report (source/report/h2_report_junit.cpp) and of the calls that the runner makes to it
    (source/core/h2_runner.cpp:138-166, with the failed and warning flags of h2_case, which only prev_setup clears:
    source/core/h2_case.cpp:9-14).

    The file is the bytes written to it; opening it is taken to succeed.  Times are milliseconds, not negative; "%.3f" of the
    double ms / 1000.0 is taken to be exact, which it is below 2^42 milliseconds.  h2_fail::print(FILE * ) is overridden by no
    class of failures (h2_failure.hpp:25, h2_failure.cpp) and writes nothing. *)
From Coq Require Import List NArith ZArith Bool Arith.
From Verif Require Import Base RunnerModel.
Import ListNotations.
Local Open Scope N_scope.

(** decimal digits (printf "%d", h2_report_junit.cpp:13), at most [fuel] of them *)
Fixpoint digits (fuel : nat) (n : N) (acc : bytes) : bytes :=
  match fuel with
  | O => acc
  | S f => if n <? 10 then (48 + n) :: acc else digits f (n / 10) ((48 + n mod 10) :: acc)
  end.
(** "%d" of a number that is not negative (h2_report_junit.cpp:13) *)
Definition dec (n : N) : bytes := digits (S (N.size_nat n)) n [].
(** "%.3f" of ms / 1000.0 (h2_report_junit.cpp:19) *)
Definition seconds (ms : N) : bytes := dec (ms / 1000) ++ [46; 48 + ms mod 1000 / 100; 48 + ms mod 100 / 10; 48 + ms mod 10].

(** what the report reads of a case when it ends (h2_report_junit.cpp:16-27); [k_fails] = failures in its tree *)
Record card := mkcard { k_name : bytes; k_filine : bytes; k_todo : bool; k_filtered : bool; k_ignored : bool; k_failed : bool; k_warning : bool; k_fails : nat; k_ms : N }.
(** what it reads of a suite when it starts (h2_report_junit.cpp:10-14); its cases *)
Record sheet := mksheet { s_name : bytes; s_failed : N; s_todo : N; s_filtered : N; s_cards : list card }.

(** the status of a case (h2_report_junit.cpp:19) *)
Definition status (c : card) : bytes :=
  if k_todo c then str "TODO" else if k_filtered c then str "Filtered" else if k_ignored c then str "Ignored"
  else if k_failed c then str "Failed" else if k_warning c then str "Warning" else str "Passed".
(** a double quote *)
(** (the quotes of the formats, h2_report_junit.cpp:13, 19, 21, 23) *)
Definition q : bytes := [34].
(** on_case_endup (h2_report_junit.cpp:16-27) *)
Definition junit_case (suite : bytes) (c : card) : bytes :=
  str "<testcase classname=" ++ q ++ suite ++ q ++ str " name=" ++ q ++ k_name c ++ q ++ str " status=" ++ q ++ status c ++ q ++ str " time=" ++ q ++ seconds (k_ms c) ++ q ++ str ">" ++ [10] ++
  (if k_failed c
   then str "<failure message=" ++ q ++ k_filine c ++ str ":" ++ concat (repeat (str "{newline}") (k_fails c)) ++ q ++ str " type=" ++ q ++ str "AssertionFailedError" ++ q ++ str "></failure>" ++ [10]
   else []) ++
  str "<system-out></system-out><system-err></system-err>" ++ [10] ++ str "</testcase>" ++ [10].
(** on_suite_start, the cases, on_suite_endup (h2_report_junit.cpp:10-14, 28-32) *)
Definition junit_suite (s : sheet) : bytes :=
  str "<testsuite errors=" ++ q ++ str "0" ++ q ++ str " failures=" ++ q ++ dec (s_failed s) ++ q ++ str " hostname=" ++ q ++ str "localhost" ++ q ++ str " name=" ++ q ++ s_name s ++ q ++
  str " skipped=" ++ q ++ dec (s_todo s + s_filtered s) ++ q ++ str " tests=" ++ q ++ dec (N.of_nat (length (s_cards s))) ++ q ++ str " time=" ++ q ++ dec 0 ++ q ++ str " timestamp=" ++ q ++ q ++ str ">" ++ [10] ++
  concat (map (junit_case (s_name s)) (s_cards s)) ++
  str "</testsuite>" ++ [10].
(** the whole file (h2_report_junit.cpp:3-9, 33-38) *)
Definition junit (ss : list sheet) : bytes :=
  str "<?xml version=" ++ q ++ str "1.0" ++ q ++ str " encoding=" ++ q ++ str "UTF-8" ++ q ++ str " ?>" ++ [10] ++ str "<testsuites>" ++ [10] ++ concat (map junit_suite ss) ++ str "</testsuites>" ++ [10].

(** the names, the times and the numbers of failures of the cases: given (h2_test.hpp:12-21; h2_case.cpp:9-25) *)
Record facts := mkfacts { f_name : N -> bytes; f_filine : N -> bytes; f_fails : nat -> N -> nat; f_ms : nat -> N -> N }.
(** the failed and warning flags of the cases (h2_case.hpp:3) *)
Definition flags := N -> bool * bool.
(** the calls of on_case_endup for the cases of a suite, from what happened to them (h2_runner.cpp:143-161): a case executed has the flags
    its body left, another one those it had; fails and stats are cleared behind every case (h2_case.cpp:1-7) *)
Fixpoint cards (ft : facts) (body : oracle) (fl : flags) (cs : list case_) (vs : list visit) : list card * flags * list visit :=
  match cs, vs with
  | c :: cs', v :: vs' =>
      let i := c_id c in
      let fl' := if v_executed v then fun j => if j =? i then body (v_round v) i else fl j else fl in
      let k := mkcard (f_name ft i) (f_filine ft i) (c_todo c) (c_filtered c) (match v_class v with Ignored => true | _ => false end)
                      (fst (fl' i)) (snd (fl' i)) (if v_executed v then f_fails ft (v_round v) i else 0%nat) (if v_executed v then f_ms ft (v_round v) i else 0) in
      let '(ks, fl2, rest) := cards ft body fl' cs' vs' in (k :: ks, fl2, rest)
  | _, _ => ([], fl, vs)
  end.
(** all suites of all rounds (h2_runner.cpp:136-166); the numbers of a suite are cleared behind it (165) and so zero when it starts *)
Fixpoint sheets (ft : facts) (body : oracle) (fl : flags) (suites : list (bytes * list case_)) (vs : list visit) : list sheet :=
  match suites with
  | [] => []
  | (name, cs) :: r => let '(ks, fl', rest) := cards ft body fl cs vs in mksheet name 0 0 0 ks :: sheets ft body fl' r rest
  end.
(** the suites of all rounds in turn (h2_runner.cpp:136-138) *)
Definition turns (o : opts) (order : nat -> list (bytes * list case_)) : list (bytes * list case_) := flat_map order (seq 0 (run_rounds o)).
(** what happened to the cases in turn (h2_runner.cpp:143-161) *)
Definition visits (o : opts) (body : oracle) (order : nat -> list (bytes * list case_)) : list visit := rev (r_log (fst (run o body (fun n => map snd (order n))))).
(** the file of a run (h2_runner.cpp:135-172) *)
Definition junit_run (ft : facts) (o : opts) (body : oracle) (order : nat -> list (bytes * list case_)) : bytes :=
  junit (sheets ft body (fun _ => (false, false)) (turns o order) (visits o body order)).
