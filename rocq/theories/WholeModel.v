(** Model of the course of a whole run: h2_runner::main (source/core/h2_runner.cpp:117-178) with the global hooks
    (source/core/h2_runner.hpp:13-15, 29-45), the collection of cases (h2_runner.cpp:46-61) and the reports (source/report/h2_report.hpp:5-33,
    source/report/h2_report.cpp:1-20).

    What counts as executed, and the statistics, are RunnerModel's.  Hooks, reports and suites return normally (checks that fail in hooks
    are C57's subject).  Functions and reports are numbers, never null. *)
From Coq Require Import List ZArith NArith Bool Arith.
From Verif Require Import RunnerModel.
Import ListNotations.
Local Open Scope N_scope.

(** an array of pointers, ended by a null pointer (h2_runner.hpp:13-15, h2_report.hpp:22) *)
Definition array := list (option N).
(** h2_array_append (source/utils/h2_misc.hpp:25): the first null pointer is replaced, but not in the last place *)
Fixpoint array_append (a : array) (x : N) : array :=
  match a with
  | [] | [_] => a
  | None :: r => Some x :: r
  | Some y :: r => Some y :: array_append r x
  end.
(** for (int i = 0; a[i]; ++i) (h2_runner.cpp:54, 58, 131, 141, 152, 154, 163, 172, h2_report.cpp:14-19); None: read beyond the array *)
Fixpoint array_walk (a : array) : option (list N) :=
  match a with
  | [] => None
  | None :: _ => Some []
  | Some x :: r => option_map (cons x) (array_walk r)
  end.
(** an array of n places with what was registered, in order (h2_runner.hpp:32, h2_report.cpp:11) *)
Definition registered (n : nat) (l : list N) : array := fold_left array_append l (repeat None n).

(** the six arrays of hooks (h2_runner.hpp:13-15) *)
Inductive hook := GlobalSetup | GlobalCleanup | SuiteSetup | SuiteCleanup | CaseSetup | CaseCleanup.
(** what a report is told (h2_report.hpp:6-11) *)
Inductive news := RunnerStart | RunnerEnd | SuiteStart (s : N) | SuiteEnd (s : N) | CaseStart (s c : N) | CaseEnd (s c : N).
(** what happens (calls made at h2_runner.cpp:46-61, 131-172): a hook is called, a report is told, s->enumerate(), s->setup(), s->cleanup(), s->test(c) *)
Inductive event := Call (h : hook) (f : N) | Tell (r : N) (n : news) | Enumerate (s : N) | Open (s : N) | Close (s : N) | Body (round : nat) (c : N).
(** what was registered before main: hooks, own reports, suites (h2_runner.hpp:29-36, h2_report.hpp:33, h2_suite.cpp:4); the built-in
    reports: list, console, junit; is a path for junit given (h2_report.cpp:3-8) *)
Record program := mkprogram { p_hooks : hook -> list N; p_reports : list N; p_suites : list N; p_list : N; p_console : N; p_junit : N; p_path : bool }.

(** h2_report::initialize (h2_report.cpp:1-9): the array of reports *)
Definition reports_of (p : program) (o : opts) : array :=
  let a := registered 8 (p_reports p) in
  if lists o then array_append a (p_list p)
  else let a := array_append a (p_console p) in if p_path p then array_append a (p_junit p) else a.
(** h2_report::on_... (h2_report.cpp:14-19) *)
Definition tell (rs : list N) (n : news) : list event := map (fun r => Tell r n) rs.
(** the loops over hooks (h2_runner.cpp:54, 58, 131, 141, 152, 154, 163, 172) *)
Definition calls (hs : hook -> list N) (h : hook) : list event := map (Call h) (hs h).
(** enumerate (h2_runner.cpp:46-61) *)
Definition collect (hs : hook -> list N) (suites : list N) : list event :=
  flat_map (fun s => calls hs SuiteSetup ++ [Open s; Enumerate s; Close s] ++ calls hs SuiteCleanup) suites.
(** one case (h2_runner.cpp:143-161) *)
Definition whole_case (o : opts) (body : oracle) (hs : hook -> list N) (rs : list N) (round : nat) (s : N) (x : rstate * stats * list event) (c : case_) : rstate * stats * list event :=
  let '(st, t) := x in
  let st' := visit_case o body round st c in
  let executed := match r_log (fst st') with v :: _ => v_executed v | [] => false end in
  (st', t ++ tell rs (CaseStart s (c_id c)) ++ (if executed then calls hs CaseSetup ++ [Body round (c_id c)] ++ calls hs CaseCleanup else []) ++ tell rs (CaseEnd s (c_id c))).
(** one suite (h2_runner.cpp:138-166) *)
Definition whole_suite (o : opts) (body : oracle) (hs : hook -> list N) (rs : list N) (round : nat) (x : rstate * list event) (s : N * list case_) : rstate * list event :=
  let '(r, t) := x in
  let '(st, t) := fold_left (whole_case o body hs rs round (fst s)) (snd s) ((r, zero), t ++ tell rs (SuiteStart (fst s)) ++ calls hs SuiteSetup ++ [Open (fst s)]) in
  (fst st, t ++ [Close (fst s)] ++ calls hs SuiteCleanup ++ tell rs (SuiteEnd (fst s))).
(** one round (h2_runner.cpp:136-169) *)
Definition whole_round (o : opts) (body : oracle) (hs : hook -> list N) (rs : list N) (order : nat -> list (N * list case_)) (x : rstate * list event) (round : nat) : rstate * list event :=
  fold_left (whole_suite o body hs rs round) (order round) x.
(** the rounds (h2_runner.cpp:136-169) *)
Definition whole_rounds (o : opts) (body : oracle) (hs : hook -> list N) (rs : list N) (order : nat -> list (N * list case_)) : rstate * list event :=
  fold_left (whole_round o body hs rs order) (seq 0 (run_rounds o)) (mkr zero [] [], []).
(** h2_runner::main (h2_runner.cpp:117-178): the end state and what happened; None: an array is read beyond its end *)
Definition whole (p : program) (o : opts) (body : oracle) (order : nat -> list (N * list case_)) : option (rstate * list event) :=
  let kept h := array_walk (registered 1024 (p_hooks p h)) in
  match array_walk (reports_of p o), kept GlobalSetup, kept GlobalCleanup, kept SuiteSetup, kept SuiteCleanup, kept CaseSetup, kept CaseCleanup with
  | Some rs, Some g1, Some g2, Some s1, Some s2, Some c1, Some c2 =>
      let hs h := match h with GlobalSetup => g1 | GlobalCleanup => g2 | SuiteSetup => s1 | SuiteCleanup => s2 | CaseSetup => c1 | CaseCleanup => c2 end in
      let '(r, t) := whole_rounds o body hs rs order in
      Some (r, calls hs GlobalSetup ++ collect hs (p_suites p) ++ tell rs RunnerStart ++ t ++ tell rs RunnerEnd ++ calls hs GlobalCleanup)
  | _, _, _, _, _, _, _ => None
  end.
