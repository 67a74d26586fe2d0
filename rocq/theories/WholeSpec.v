(** What is said of a whole run: what is told to reports, and when hooks are called. *)
From Coq Require Import List ZArith NArith Bool Arith.
From Verif Require Import RunnerModel WholeModel.
Import ListNotations.
Local Open Scope N_scope.

(** the suites of all rounds, one after the other *)
Definition turns (o : opts) (order : nat -> list (N * list case_)) : list (N * list case_) := flat_map order (seq 0 (run_rounds o)).
(** what a report should hear: the run, in it the suites, in them their cases *)
Definition story (l : list (N * list case_)) : list news :=
  RunnerStart :: flat_map (fun s => SuiteStart (fst s) :: flat_map (fun c => [CaseStart (fst s) (c_id c); CaseEnd (fst s) (c_id c)]) (snd s) ++ [SuiteEnd (fst s)]) l ++ [RunnerEnd].
(** what a report has heard *)
Definition heard (r : N) (t : list event) : list news := flat_map (fun e => match e with Tell r' n => if r' =? r then [n] else [] | _ => [] end) t.
(** the reports there should be *)
Definition wanted (p : program) (o : opts) : list N := p_reports p ++ (if lists o then [p_list p] else p_console p :: if p_path p then [p_junit p] else []).
(** the bodies that ran *)
Definition bodies (t : list event) : list (nat * N) := flat_map (fun e => match e with Body n c => [(n, c)] | _ => [] end) t.
(** number of calls of a hook *)
Definition called (h : hook) (f : N) (t : list event) : nat :=
  length (filter (fun e => match e with Call h' f' => (f' =? f) && match h, h' with GlobalSetup, GlobalSetup | GlobalCleanup, GlobalCleanup | SuiteSetup, SuiteSetup | SuiteCleanup, SuiteCleanup | CaseSetup, CaseSetup | CaseCleanup, CaseCleanup => true | _, _ => false end | _ => false end) t).
(** is it about a suite as a whole, other than what reports are told? *)
Definition of_suite (e : event) : bool := match e with Call SuiteSetup _ | Call SuiteCleanup _ | Enumerate _ | Open _ | Close _ => true | _ => false end.
(** is it about the run as a whole? *)
Definition of_run (e : event) : bool := match e with Call GlobalSetup _ | Call GlobalCleanup _ => true | _ => false end.
