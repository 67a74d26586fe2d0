(** Model of mocks: source/mock/h2_checkin.hpp, h2_checkin.cpp, h2_mocker.hpp, h2_mocker.cpp, h2_mocks.cpp, h2_tuple.hpp.
    A matcher of one argument is a predicate on argument values (V); a call carries the list of its arguments; R stands for
    routines. Failure texts are not modelled, only which failures are raised and where. Call counters are unbounded
    integers (int in the source). *)
From Coq Require Import List ZArith Bool.
Import ListNotations.
Local Open Scope Z_scope.

(** h2_checkin (h2_checkin.hpp:2-4) *)
Record checkin := mkcheckin { call : Z; least : Z; most : Z }.
(** insufficient, is_satisfied, is_saturated (h2_checkin.hpp:8-10) *)
Definition insufficient (c : checkin) : bool := call c <? least c.
(** h2_checkin.hpp:9 *)
Definition is_satisfied (c : checkin) : bool := (least c <=? call c) && (call c <=? most c).
(** h2_checkin.hpp:10 *)
Definition is_saturated (c : checkin) : bool := call c =? most c.
(** Once, Twice, Times, Any, Atleast, Atmost, Between (h2_checkin.hpp:17-23) *)
Inductive bounds := Once | Twice | Times (n : Z) | Any | Atleast (n : Z) | Atmost (n : Z) | Between (l r : Z).
(** h2_checkin.hpp:17-23 *)
Definition fresh (b : bounds) : checkin :=
  match b with
  | Once => mkcheckin 0 1 1
  | Twice => mkcheckin 0 2 2
  | Times n => mkcheckin 0 n n
  | Any => mkcheckin 0 0 0x7fffffff
  | Atleast n => mkcheckin 0 n 0x7fffffff
  | Atmost n => mkcheckin 0 0 n
  | Between l r => mkcheckin 0 l r
  end.
(** h2_checkin::check raises a failure? (h2_checkin.cpp:1-7) *)
Definition check_fails (c : checkin) : bool := negb (is_satisfied c || is_saturated c).

(** the arrays and modes of a mocker (h2_mocker.hpp:7,13-14,33-34) *)
Record mocker (V R : Type) := mkmocker {
  checkins : list checkin; matchers : list (list (V -> bool)); routines : list (option R); index : nat; greed : bool }.
Arguments mkmocker {V R}. Arguments checkins {V R}. Arguments matchers {V R}. Arguments routines {V R}.
Arguments index {V R}. Arguments greed {V R}.

(** failures raised during a call: argument mismatches on expectation i (positions), or no expectation at all
    (h2_mocker.hpp:64,76-80) *)
Inductive report := Mismatch (i : nat) (args : list nat) | Unexpected.

(** tuple_matches: positions of the arguments that do not match, first to last (h2_tuple.hpp:1-17); the number of
    arguments is what counts, unused matchers of the 20 are ignored *)
Fixpoint tuple_matches {V} (pos : nat) (ms : list (V -> bool)) (args : list V) : list nat :=
  match args, ms with
  | a :: args', m :: ms' => (if m a then [] else [pos]) ++ tuple_matches (S pos) ms' args'
  | _, _ => []
  end.

(** one call++ (h2_mocker.hpp:75) *)
Fixpoint charge (l : list checkin) (i : nat) : list checkin :=
  match l, i with
  | [], _ => []
  | c :: r, O => mkcheckin (call c + 1) (least c) (most c) :: r
  | c :: r, S i' => c :: charge r i'
  end.

(** result of the loop: checkin_index, checkin_offset, failures, left by longjmp? (h2_mocker.hpp:54-74) *)
Record scanned := mkscanned { sc_index : nat; sc_offset : option nat; sc_reports : list report; sc_aborted : bool }.

(** the loop of matches (h2_mocker.hpp:56-74) from position i over the remaining expectations. [aborts]: failing leaves
    the case by longjmp (h2_runner.cpp:203-208, h2_case.cpp:33), i.e. not O.continue_assert *)
Fixpoint scan {V} (aborts greedy : bool) (cs : list checkin) (ms : list (list (V -> bool))) (args : list V)
    (i idx : nat) (off : option nat) (reps : list report) : scanned :=
  match cs, ms with
  | c :: cs', m :: ms' =>
      match tuple_matches 0 m args with
      | [] =>
          if is_saturated c then scan aborts greedy cs' ms' args (S i) i (Some i) reps
          else if insufficient c then mkscanned i (Some i) reps false
          else if greedy then mkscanned i (Some i) reps false
          else scan aborts greedy cs' ms' args (S i) i (Some i) reps
      | bad =>
          match off with
          | Some _ => mkscanned idx off reps false
          | None =>
              if is_satisfied c then scan aborts greedy cs' ms' args (S i) idx off reps
              else if aborts then mkscanned idx off (reps ++ [Mismatch i bad]) true
              else scan aborts greedy cs' ms' args (S i) idx off (reps ++ [Mismatch i bad])
          end
      end
  | _, _ => mkscanned idx off reps false
  end.

(** outcome of a call: charged expectation, failures, left by longjmp? (h2_mocker.hpp:75-83) *)
Record outcome := mkoutcome { o_charged : option nat; o_reports : list report; o_aborted : bool }.
(** matches (h2_mocker.hpp:52-83) *)
Definition matches {V R} (aborts : bool) (k : mocker V R) (args : list V) : mocker V R * outcome :=
  let s := scan aborts (greed k) (skipn (index k) (checkins k)) (skipn (index k) (matchers k)) args (index k) (index k) None [] in
  let k' l := mkmocker l (matchers k) (routines k) (sc_index s) (greed k) in
  if sc_aborted s then (k' (checkins k), mkoutcome None (sc_reports s) true)
  else match sc_offset s with
       | Some i => (k' (charge (checkins k) i), mkoutcome (Some i) (sc_reports s) false)
       | None => (k' (checkins k), mkoutcome None (sc_reports s ++ [Unexpected]) aborts)
       end.

(** what function_stub calls afterwards (h2_mocker.hpp:37-44): a routine, or the original function; None if the call was
    left by longjmp or indexes outside the array *)
Inductive callee (R : Type) := Original | Routine (r : R).
Arguments Original {R}. Arguments Routine {R}.
(** h2_mocker.hpp:41-43 *)
Definition dispatch {V R} (k : mocker V R) (o : outcome) : option (callee R) :=
  if o_aborted o then None
  else match o_charged o with
       | None => Some Original
       | Some i => match nth_error (routines k) i with
                   | None => None
                   | Some None => Some Original
                   | Some (Some r) => Some (Routine r)
                   end
       end.

(** reset (h2_mocker.hpp:85-92) *)
Definition reset {V R} : mocker V R := mkmocker [] [] [] 0 true.

(** the declaration chain (h2_mocker.hpp:123-228) *)
Inductive decl (V R : Type) :=
| Expect (b : bounds) (ms : list (V -> bool))   (* Once .. Between, lines 132-186 *)
| With (ms : list (V -> bool))                  (* 188-193 *)
| Th (i : nat) (m : V -> bool)                  (* 198-205 *)
| Return (r : R)                                (* 208-214 *)
| Assign (r : R)                                (* operator=, 216-228 *)
| Greed (b : bool).                             (* 123-127 *)
Arguments Expect {V R}. Arguments With {V R}. Arguments Th {V R}. Arguments Return {V R}. Arguments Assign {V R}. Arguments Greed {V R}.

(** the default matcher of an omitted argument accepts everything (h2_mocker.hpp:129: = {}) *)
Definition anything {V} (_ : V) : bool := true.
(** given matchers first, defaults for the rest (h2_mocker.hpp:129-135) *)
Definition full {V} (ms : list (V -> bool)) : list (V -> bool) := ms ++ repeat anything (20 - length ms).

(** x.back() = v (h2_mocker.hpp:191,202,211-212) *)
Definition set_back {A} (l : list A) (v : A) : list A := removelast l ++ [v].
(** push_back on the three arrays (h2_mocker.hpp:134-136) *)
Definition expect {V R} (k : mocker V R) (b : bounds) (ms : list (V -> bool)) : mocker V R :=
  mkmocker (checkins k ++ [fresh b]) (matchers k ++ [full ms]) (routines k ++ [None]) (index k) (greed k).
(** if (checkin_array.empty()) Any() (h2_mocker.hpp:190,201,210,218,225) *)
Definition ensure {V R} (k : mocker V R) : mocker V R := match checkins k with [] => expect k Any [] | _ => k end.
(** std::get<i>(tuple) = e (h2_mocker.hpp:202) *)
Fixpoint set_nth {A} (l : list A) (i : nat) (v : A) : list A :=
  match l, i with [], _ => [] | _ :: r, O => v :: r | x :: r, S i' => x :: set_nth r i' v end.
(** one step of the chain (h2_mocker.hpp:123-228) *)
Definition declare {V R} (k : mocker V R) (d : decl V R) : mocker V R :=
  match d with
  | Expect b ms => expect k b ms
  | With ms => let k := ensure k in mkmocker (checkins k) (set_back (matchers k) (full ms)) (routines k) (index k) (greed k)
  | Th i m => let k := ensure k in
      mkmocker (checkins k) (set_back (matchers k) (set_nth (last (matchers k) []) i m)) (routines k) (index k) (greed k)
  | Return r => let k := ensure k in
      mkmocker (checkins k) (matchers k)
        ((match routines k with [] => [] | _ => removelast (routines k) end) ++ [Some r]) (index k) (greed k)
  | Assign r => let k := ensure k in
      mkmocker (checkins k) (matchers k) (map (fun a => match a with None => Some r | Some _ => a end) (routines k)) (index k) (greed k)
  | Greed b => mkmocker (checkins k) (matchers k) (routines k) (index k) b
  end.
(** a whole chain on a mocker just made by MOCK (h2_mocker.hpp:106-121: reset) *)
Definition declares {V R} (ds : list (decl V R)) : mocker V R := fold_left declare ds reset.

(** h2_mocker_base::check: indices of violated expectations (h2_mocker.cpp:21-34); non-empty means the mock fails *)
Fixpoint violated (i : nat) (l : list checkin) : list nat :=
  match l with [] => [] | c :: r => (if check_fails c then [i] else []) ++ violated (S i) r end.
(** h2_mocker.cpp:21-34 *)
Definition check {V R} (k : mocker V R) : list nat := violated 0 (checkins k).

(** the mocks of a case by name, in list order: h2_mocks::clear(mocks, check) (h2_mocks.cpp:9-18): failures by mock, all
    mocks reset *)
Definition clear {V R} (ks : list (mocker V R)) (checked : bool) : list (list nat) * list (mocker V R) :=
  (if checked then filter (fun v => match v with [] => false | _ => true end) (map check ks) else [], map (fun _ => reset) ks).

(** a sequence of calls (each through h2_mocker.hpp:37-44) *)
Fixpoint calls {V R} (aborts : bool) (k : mocker V R) (l : list (list V)) : mocker V R * list outcome :=
  match l with
  | [] => (k, [])
  | a :: r => let (k1, o) := matches aborts k a in let (k2, os) := calls aborts k1 r in (k2, o :: os)
  end.
