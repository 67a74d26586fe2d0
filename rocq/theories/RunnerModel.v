(** Model of the main loop of the runner: source/core/h2_runner.cpp:117-178 (with h2_suite::test, h2_case flags and
    h2_stats). The bodies of cases are an oracle saying whether the case ends with its failed / warning flags set; the
    order of suites and cases in each round is a parameter (see OrderModel). Counters are unbounded integers. *)
From Coq Require Import List ZArith NArith Bool.
Import ListNotations.
Local Open Scope Z_scope.

(** the options used by the loop (h2_option.hpp: run_rounds, break_after_fails, only_last_failed, lists, exit_with_fails) *)
Record opts := mkopts { run_rounds : nat; break_after_fails : Z; only_last_failed : bool; lists : bool; exit_with_fails : bool }.
(** the flags of a case that the loop reads (h2_case.hpp:2-3, h2_test.hpp: filtered) *)
Record case_ := mkcase { c_id : N; c_todo : bool; c_filtered : bool; c_last_failed : bool }.
(** h2_stats (h2_test.hpp:1-7) *)
Record stats := mkstats { passed : Z; failed : Z; warning : Z; todo : Z; filtered : Z; ignored : Z }.
(** h2_stats::clear (h2_test.hpp:6) *)
Definition zero := mkstats 0 0 0 0 0 0.

(** how a case is counted (h2_runner.cpp:145-157); Listed: in list mode an eligible case is not counted at all *)
Inductive class := Passed | Failed | Warning | Todo | Filtered | Ignored | Listed.
(** the increments (h2_runner.cpp:145-157) *)
Definition bump (k : class) (s : stats) : stats :=
  match k with
  | Passed => mkstats (passed s + 1) (failed s) (warning s) (todo s) (filtered s) (ignored s)
  | Failed => mkstats (passed s) (failed s + 1) (warning s) (todo s) (filtered s) (ignored s)
  | Warning => mkstats (passed s) (failed s) (warning s + 1) (todo s) (filtered s) (ignored s)
  | Todo => mkstats (passed s) (failed s) (warning s) (todo s + 1) (filtered s) (ignored s)
  | Filtered => mkstats (passed s) (failed s) (warning s) (todo s) (filtered s + 1) (ignored s)
  | Ignored => mkstats (passed s) (failed s) (warning s) (todo s) (filtered s) (ignored s + 1)
  | Listed => s
  end.

(** what happened to a case in a round (the branches of h2_runner.cpp:144-158) *)
Record visit := mkvisit { v_round : nat; v_case : N; v_executed : bool; v_class : class }.
(** loop state: runner stats, ignored flags of cases (h2_case.hpp:3), visits so far (latest first) *)
Record rstate := mkr { r_stats : stats; r_ignored : list N; r_log : list visit }.

(** outcome of executing a case body: (failed, warning) flags at the end of s->test(c) (h2_suite.cpp:32-44) *)
Definition oracle := nat -> N -> bool * bool.

(** the body of the case loop (h2_runner.cpp:143-161); ss is the suite's stats *)
Definition visit_case (o : opts) (body : oracle) (round : nat) (rs : rstate * stats) (c : case_) : rstate * stats :=
  let (r, ss) := rs in
  let ign := if ((0 <? break_after_fails o) && (break_after_fails o <=? failed (r_stats r))) ||
                (only_last_failed o && negb (c_last_failed c))
             then c_id c :: r_ignored r else r_ignored r in
  let ig := existsb (N.eqb (c_id c)) ign in
  let (s1, ss1) := if ig then (bump Ignored (r_stats r), bump Ignored ss)
                   else if c_filtered c then (bump Filtered (r_stats r), bump Filtered ss)
                   else if c_todo c then (bump Todo (r_stats r), bump Todo ss)
                   else (r_stats r, ss) in
  if negb (lists o) && negb (c_todo c) && negb (c_filtered c) && negb ig then
    let (f, w) := body round (c_id c) in
    let k := if f then Failed else if w then Warning else Passed in
    (mkr (bump k s1) ign (mkvisit round (c_id c) true k :: r_log r), bump k ss1)
  else
    let k := if ig then Ignored else if c_filtered c then Filtered else if c_todo c then Todo else Listed in
    (mkr s1 ign (mkvisit round (c_id c) false k :: r_log r), ss1).

(** one suite (h2_runner.cpp:138-166); its stats are reported at the end (164) and then cleared (165) *)
Definition visit_suite (o : opts) (body : oracle) (round : nat) (x : rstate * list stats) (cases : list case_) : rstate * list stats :=
  let (r, reports) := x in
  let (r', ss) := fold_left (visit_case o body round) cases (r, zero) in
  (r', ss :: reports).

(** one round (h2_runner.cpp:136-169) *)
Definition visit_round (o : opts) (body : oracle) (order : nat -> list (list case_)) (x : rstate * list stats) (round : nat) : rstate * list stats :=
  fold_left (visit_suite o body round) (order round) x.

(** all rounds (h2_runner.cpp:136-169); result: final state and the suite reports (latest first) *)
Definition run (o : opts) (body : oracle) (order : nat -> list (list case_)) : rstate * list stats :=
  fold_left (visit_round o body order) (seq 0 (run_rounds o)) (mkr zero [] [], []).

(** return value of main (h2_runner.cpp:177) *)
Definition main_result (o : opts) (r : rstate) : Z := if exit_with_fails o then failed (r_stats r) else 0.
(** what the parent process sees: the low eight bits (wait status; main returned by h2_unit.cpp:89,94) *)
Definition exit_status (v : Z) : Z := v mod 256.
