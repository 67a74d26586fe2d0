(** Model of Catch: h2_exception (source/except/h2_exception.hpp:1-64, source/except/h2_exception.cpp:11-54) and the jump of a failed
    check (source/core/h2_case.cpp:26-35).  Catch intercepts abi::__cxa_throw and leaves its body by longjmp; its flag and its jump
    buffer are one for the whole program.  A jump buffer is known by the number of the Catch that filled it; a jump to a Catch that has
    been left is undefined in C++, and Broken here.  Types and values of exceptions are numbers; matchers are functions without effect. *)
From Coq Require Import List NArith Bool.
Import ListNotations.
Local Open Scope N_scope.

(** the argument of Catch: Catch(), Catch(type) and Catch(type, matcher), the second with the matcher _ (h2_exception.hpp:60-62) *)
Inductive expect := ENothrow | EType (t : N) (m : N -> bool).
(** user code (h2_exception.hpp:64 and C++) *)
Inductive stmt :=
| CSay (k : N)                            (* anything that can be seen from outside *)
| CThrow (t v : N)                        (* an exception is thrown, h2_exception.cpp:11-21 *)
| CFail                                   (* a check fails, source/core/h2_runner.cpp:203-208 *)
| CReturn                                 (* the rest of the case is left by return *)
| CTry (b : list stmt)                    (* try { } catch (...) { } written by the user *)
| CCatch (e : expect) (b : list stmt).    (* Catch(...) { }, h2_exception.hpp:64 *)

(** why a Catch fails (h2_exception.hpp:39-52) *)
Inductive why := WThrown (t : N) | WNothing | WType (t : N) | WValue (t : N).
(** what can be observed (not in the code): marks of the user, a failed check, the end of a Catch, an exception that left the case (h2_suite.cpp:42) *)
Inductive event := Said (k : N) | CheckFailed | Verdict (w : option why) | Uncaught (t : N).
(** the members of h2_exception (h2_exception.hpp:3-10); frames counts the Catches entered *)
Record state := mkstate { catching : bool; hole : N; thrown : option (N * N); frames : N }.
(** how code ends (h2_case.cpp:33, h2_exception.cpp:17-20) *)
Inductive outcome := Normal | Jumped | Returned | Thrown (t v : N) | ToHole (f : N).

(** h2_runner::failing with h2_case::failing (h2_runner.cpp:203-208, h2_case.cpp:26-35) *)
Definition failing (continue_assert : bool) : outcome := if continue_assert then Normal else Jumped.
(** h2_exception_handler::__cxa_throw (h2_exception.cpp:11-21) *)
Definition throw (t v : N) (st : state) : outcome * state :=
  (if catching st then ToHole (hole st) else Thrown t v, mkstate (catching st) (hole st) (Some (t, v)) (frames st)).
(** h2_exception::try_catch and the setjmp of Catch (h2_exception.cpp:36-43, h2_exception.hpp:64) *)
Definition enter (st : state) : state := mkstate true (frames st) None (frames st + 1).
(** what check_catch finds (h2_exception.hpp:34-55) *)
Definition complaint (e : expect) (th : option (N * N)) : option why :=
  match e, th with
  | ENothrow, None => None
  | ENothrow, Some (t, _) => Some (WThrown t)
  | EType _ _, None => Some WNothing
  | EType t m, Some (t1, v) => if t =? t1 then (if m v then None else Some (WValue t1)) else Some (WType t1)
  end.
(** check_catch and try_catch_finally (h2_exception.hpp:34-57, h2_exception.cpp:45-54) *)
Definition check_catch (c : bool) (e : expect) (st : state) : outcome * state * list event :=
  let w := complaint e (thrown st) in
  (match w with None => Normal | Some _ => failing c end, mkstate false (hole st) None (frames st), [Verdict w]).

(** statements in order (C++; a case's body, source/core/h2_core.hpp:13-19) *)
Definition in_order (f : stmt -> state -> outcome * state * list event) : list stmt -> state -> outcome * state * list event :=
  fix go (b : list stmt) (st : state) {struct b} : outcome * state * list event :=
    match b with
    | [] => (Normal, st, [])
    | s :: r =>
        match f s st with
        | (Normal, st1, e1) => match go r st1 with (out, st2, e2) => (out, st2, e1 ++ e2) end
        | other => other
        end
    end.
(** the end of the body of the Catch with number f (h2_exception.hpp:60-64): reached, or jumped to *)
Definition leave (c : bool) (e : expect) (f : N) (r : outcome * state * list event) : outcome * state * list event :=
  match r with
  | (Normal, st, ev) => match check_catch c e st with (out, st1, ev1) => (out, st1, ev ++ ev1) end
  | (ToHole g, st, ev) => if g =? f then match check_catch c e st with (out, st1, ev1) => (out, st1, ev ++ ev1) end else r
  | other => other
  end.
(** a statement (h2_exception.hpp:60-64, h2_exception.cpp:11-54, as cited at the constructors) *)
Fixpoint exec (c : bool) (s : stmt) (st : state) {struct s} : outcome * state * list event :=
  match s with
  | CSay k => (Normal, st, [Said k])
  | CThrow t v => (throw t v st, [])
  | CFail => (failing c, st, [CheckFailed])
  | CReturn => (Returned, st, [])
  | CTry b => match in_order (exec c) b st with (Thrown _ _, st1, ev) => (Normal, st1, ev) | other => other end
  | CCatch e b => leave c e (frames st) (in_order (exec c) b (enter st))
  end.
(** code (h2_core.hpp:13-19) *)
Definition run_code (c : bool) : list stmt -> state -> outcome * state * list event := in_order (exec c).
(** the cases, one after the other (source/core/h2_suite.cpp:32-44; h2_runner.cpp:143-161); None: undefined behaviour *)
Fixpoint run_cases (c : bool) (cs : list (list stmt)) (st : state) : option (list (list event)) :=
  match cs with
  | [] => Some []
  | b :: r =>
      match run_code c b st with
      | (ToHole _, _, _) => None
      | (Thrown t _, st1, ev) => option_map (cons (ev ++ [Uncaught t])) (run_cases c r st1)
      | (_, st1, ev) => option_map (cons ev) (run_cases c r st1)
      end
  end.
(** the members at first (h2_exception.hpp:6-9; the others are zero as the singleton is static) *)
Definition start : state := mkstate false 0 None 0.
