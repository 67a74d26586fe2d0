(** What should hold of stubs, mocks and DNS entries. *)
From Coq Require Import List NArith Bool Arith.
From Verif Require Import ScopeModel.
Import ListNotations.

(** code that belongs to a case: its body (with the suite's setup and cleanup code) and the global case setup *)
Definition of_case (p : place) : Prop := match p with PCaseSetup _ _ _ | PBody _ _ _ => True | _ => False end.
(** nothing installed by the code of a case is in force *)
Definition no_case_items (x : sc) : Prop := forall l, In l (lives x) -> ~ of_case (l_origin l).
(** a run of the program up to (not including) an occurrence of event e *)
Definition reaches (code : place -> list action) (suites : list N) (rounds : list (list (N * list (N * bool)))) (e : event) (x : sc) : Prop :=
  exists before after, main_events suites rounds = before ++ e :: after /\ x = exec code sc0 before.
(** the events at which something other than the code of a case begins *)
Definition boundary (e : event) : Prop := match e with EUser (PBody _ _ _) | EClearCase _ => False | _ => True end.
(** all that happens before the first round: global setup, then the collection of the cases of all suites *)
Definition early (suites : list N) : list event := EUser PGlobalSetup :: enum_events suites.
(** user code run then *)
Definition glob (p : place) : Prop := match p with PGlobalSetup | PEnumSuiteSetup _ | PEnumBody _ | PEnumSuiteCleanup _ => True | _ => False end.
