(** Model of a suite's function: the control flow made by SUITE, Setup, Cleanup, Case, Cases and Casess (source/core/h2_core.hpp:2-19,
    70-102), the registration of cases (source/core/h2_suite.cpp:27-30, 46-51) and the jump of ~cleaner (53-58).

    A suite's function is called once to register its cases and once for each test.  Its text is a list of items; what a body does is
    not followed beyond how it ends (CaseModel follows it), and Setup, Cleanup and other code neither fail nor throw.  The lists of
    values are as H2PP_FOREACH and H2PP_FULLMESH hand them out (MacroModel).  A longjmp to a place in a call that has returned is the
    outcome Stale; fuel counts jumps to Cleanup. *)
From Coq Require Import List NArith Bool Arith.
Import ListNotations.
Local Open Scope N_scope.

(** a value of a list: its type, as auto would deduce it, and what it is (h2_core.hpp:72, 80) *)
Definition value := (N * N)%type.
(** the text of a suite (h2_core.hpp:2-35, 70-102); a case has a number of its own, as its instance has an address *)
Inductive item :=
| IStep (n : N)                            (* code that stands alone in the suite, e.g. local variables *)
| ISetup (n : N)                           (* Setup, h2_core.hpp:8 *)
| ICleanup (n : N)                         (* Cleanup, h2_core.hpp:9 *)
| ICase (k : N)                            (* Case and Todo, h2_core.hpp:11-19 *)
| ICases (ks : list (N * list value)).     (* Cases, Casess: the instances with the value or the pair, h2_core.hpp:70-102 *)

(** how a body ends (h2_core.hpp:19; h2_case.cpp:33; h2_suite.cpp:37-41) *)
Inductive how := HNormal | HFailed | HThrew.
(** what can be observed (not in the code; the places of h2_core.hpp:2-19, 70-102) *)
Inductive event := Stepped (n : N) | SetUp (n : N) | CleanedUp (n : N) | Ran (k : N) (vs : list value) (h : how).
(** what is not followed: how assignment converts a value to a type (h2_core.hpp:84), and how the body of a case ends when it is entered
    for the n-th time (code written by the user) *)
Record world := mkworld { convert : N -> value -> value; ending : N -> nat -> how }.
(** the parameter for the case (h2_core.hpp:6), cleanup_hole (h2_suite.hpp:3) with the call it was set in and what follows there, the list
    of cases with their static instances (h2_suite.hpp:4, h2_core.hpp:14-15), and what happened *)
Record state := mkstate { ptr : option N; hole : option (nat * N * list item); made : list N; entries : nat; log : list event }.
(** how the function ends (h2_suite.cpp:27-44) *)
Inductive result := Done (st : state) (thrown : bool) | Stale | OutOfFuel.

(** notes an event (not in the code; observation only, for h2_core.hpp:2-19) *)
Definition say (e : event) (st : state) : state := mkstate (ptr st) (hole st) (made st) (entries st) (log st ++ [e]).
(** a static instance and its registor are constructed once (h2_core.hpp:14-15, 82-83; h2_suite.cpp:46-51) *)
Definition make (k : N) (st : state) : state :=
  if existsb (N.eqb k) (made st) then st else mkstate (ptr st) (hole st) (made st ++ [k]) (entries st) (log st).
(** does the parameter name this case (h2_core.hpp:16, 84) *)
Definition named (k : N) (st : state) : bool := match ptr st with Some c => c =? k | None => false end.
(** the parameter is set to nullptr (h2_core.hpp:17, 76) *)
Definition forget (st : state) : state := mkstate None (hole st) (made st) (entries st) (log st).
(** the body of a case (h2_core.hpp:18-19, 77-79) *)
Definition body (w : world) (k : N) (vs : list value) (st : state) : how * state :=
  let h := ending w k (entries st) in (h, mkstate (ptr st) (hole st) (made st) (S (entries st)) (log st ++ [Ran k vs h])).
(** the values assigned to variables of the types of the first values (h2_core.hpp:72, 84, 90-91, 101) *)
Definition assigned (w : world) (first vs : list value) : list value := map (fun p => convert w (fst (fst p)) (snd p)) (combine first vs).
(** the comparisons made for the list of Cases (h2_core.hpp:74, 81-84): the instances are constructed; the last one named opens the door *)
Fixpoint doors (w : world) (first : list value) (ks : list (N * list value)) (open_ : option (N * list value)) (st : state) : option (N * list value) * state :=
  match ks with
  | [] => (open_, st)
  | (k, vs) :: r => let st1 := make k st in doors w first r (if named k st1 then Some (k, assigned w first vs) else open_) st1
  end.
(** ~cleaner (h2_suite.cpp:53-58): [jump] goes to the Cleanup block and what follows it; [on] when there is none *)
Definition cleaner (act : nat) (jump : list item -> state -> result) (on : state -> result) (st : state) : result :=
  match hole st with
  | None => on st
  | Some (a, n, r) => if Nat.eqb a act then jump r (say (CleanedUp n) st) else Stale
  end.
(** the function from some item on, in call [act] (h2_core.hpp:6-19, 70-102) *)
Fixpoint pass (fuel : nat) (w : world) (act : nat) : list item -> state -> result :=
  let jump := match fuel with O => fun _ _ => OutOfFuel | S f => pass f w act end in
  fix go (l : list item) (st : state) {struct l} : result :=
    match l with
    | [] => Done st false
    | IStep n :: r => go r (say (Stepped n) st)
    | ISetup n :: r => go r (match ptr st with Some _ => say (SetUp n) st | None => st end)
    | ICleanup n :: r => go r (mkstate (ptr st) (Some (act, n, r)) (made st) (entries st) (log st))
    | ICase k :: r =>
        let st1 := make k st in
        if named k st1 then
          match body w k [] st1 with
          | (HThrew, st2) => cleaner act jump (fun s => Done s true) st2
          | (_, st2) => cleaner act jump (go r) (forget st2)
          end
        else go r st1
    | ICases ks :: r =>
        match doors w (match ks with (_, f) :: _ => f | [] => [] end) ks None st with
        | (None, st1) => go r st1
        | (Some (k, vs), st1) =>
            match body w k vs st1 with
            | (HThrew, st2) => cleaner act jump (fun s => Done s true) st2
            | (_, st2) => cleaner act jump (fun s => go r (forget s)) st2
            end
        end
    end.

(** h2_suite::enumerate (h2_suite.cpp:27-30): the first call *)
Definition enumerate (fuel : nat) (w : world) (l : list item) : result := pass fuel w 0 l (mkstate None None [] 0 []).
(** h2_suite::test (h2_suite.cpp:32-44): the call for one case *)
Definition test (fuel : nat) (w : world) (act : nat) (l : list item) (k : N) (st : state) : result :=
  pass fuel w act l (mkstate (Some k) (hole st) (made st) (entries st) []).
(** the tests in the order of the runner, each with what happened in it (h2_runner.cpp:143-161); None: undefined behaviour or no end *)
Fixpoint tests (fuel : nat) (w : world) (act : nat) (l : list item) (order : list N) (st : state) : option (list (list event)) :=
  match order with
  | [] => Some []
  | k :: r => match test fuel w act l k st with Done st1 _ => option_map (cons (log st1)) (tests fuel w (S act) l r st1) | _ => None end
  end.
(** a suite from its registration on (h2_runner.cpp:132-161) *)
Definition suite (fuel : nat) (w : world) (l : list item) (order : list N) : option (list (list event)) :=
  match enumerate fuel w l with Done st _ => tests fuel w 1 l order st | _ => None end.
