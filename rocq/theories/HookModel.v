(** Model of where memory is watched: h2_memory::initialize, hook and the scopes (source/memory/h2_memory.cpp:18-75), h2_stack's list
    of scopes (source/memory/h2_stack.cpp:1-54), and what switches the watching: BLOCK and UNMEM, h2_case::clear
    (source/core/h2_case.cpp:1-7), and the parts of h2unit that must not be watched themselves (h2_pattern::regex_match,
    source/utils/h2_pattern.cpp:1-14; h2_backtrace::dump, in, print, source/symbol/h2_backtrace.cpp:52-148; __nm, source/symbol/h2_nm.cpp:2-17).

    Pieces of memory are identities; limits, contents and exempted functions are MemModel's subject.  User code is a list of statements
    executed in order.  A failed check leaves the case by longjmp, which runs no destructor (h2_case.cpp:33). *)
From Coq Require Import List NArith Bool Arith.
Import ListNotations.
Local Open Scope N_scope.

(** user code (calls of the functions overridden at source/memory/h2_override.cpp:1-77, and the macros of h2_memory.hpp:26-31) *)
Inductive stmt :=
| SAlloc (k : N)                                             (* memory is allocated, h2_override.cpp:11-60 *)
| SFree (k : N)                                              (* memory is released, h2_override.cpp:7-10, 61-76 *)
| SHelp                                                      (* e.g. a regular expression is matched, h2_pattern.cpp:1-14 *)
| SFail                                                      (* a check fails, source/core/h2_runner.cpp:203-208 *)
| SThrow                                                     (* an exception is thrown, source/except/h2_exception.cpp:11-21 *)
| STry (b : list stmt)                                       (* try { } catch (...) { } written by the user, h2_suite.cpp:37-41 likewise *)
| SBlock (l : N) (unmem noleak : bool) (b : list stmt).      (* BLOCK, UNMEM, h2_memory.hpp:26-31; attributes as read by BlockModel *)

(** options (source/option/h2_option.hpp: memory_check, continue_assert, as_waring_memory_leak) *)
Record opts := mkopts { o_check : bool; o_continue : bool; o_leak_warning : bool }.
(** h2_block (source/memory/h2_block.cpp:31-40): its place, its attribute, its pieces with free_times > 0 *)
Record scope := mkscope { s_label : N; s_noleak : bool; s_pieces : list (N * bool) }.
(** s_overrides (h2_memory.cpp:30), how often the overrides are in the lists of stubs (h2_override.cpp:80-112), the scopes, latest first (h2_stack.cpp:3) *)
Record state := mkstate { overrides : bool; installed : nat; scopes : list scope }.
(** what can be observed (not in the code; h2_stack.cpp:25-42, h2_block.cpp:43-70): an allocation and the scope it is charged to, a release,
    a release of something unknown, a second release, the end of a scope and what is reported as leaked there *)
Inductive event := Seen (k : N) (w : option N) | Freed (k : N) | Unknown (k : N) | Twice (k : N) | Ended (l : N) (ks : list N).
(** how code ends (h2_case.cpp:33; h2_exception.cpp:20); Broken: the C library is asked to release memory that is not its own, or a jump
    to a place that is not there any more *)
Inductive outcome := Normal | Jumped | Thrown | Broken.

(** h2_memory::hook (h2_memory.cpp:28-39) *)
Definition hook (o : opts) (b : bool) (st : state) : state :=
  if o_check o then mkstate b (if b then (if overrides st then installed st else S (installed st)) else (if overrides st then 0%nat else installed st)) (scopes st)
  else st.
(** does an allocation reach h2_override (h2_override.cpp:84-108) *)
Definition watching (st : state) : bool := (0 <? installed st)%nat.
(** h2_stack::push (h2_stack.cpp:6-10) *)
Definition push (l : N) (noleak : bool) (st : state) : state := mkstate (overrides st) (installed st) (mkscope l noleak [] :: scopes st).
(** what h2_block::check finds unreleased (h2_block.cpp:54-60) *)
Definition unreleased (s : scope) : list N := if s_noleak s then [] else map fst (filter (fun p => negb (snd p)) (s_pieces s)).
(** h2_stack::pop (h2_stack.cpp:12-18) *)
Definition pop (st : state) : option (state * N * list N) :=
  match scopes st with [] => None | s :: r => Some (mkstate (overrides st) (installed st) r, s_label s, unreleased s) end.
(** h2_stack::new_piece (h2_stack.cpp:25-30): the piece goes to the top scope *)
Definition add_piece (k : N) (st : state) : state :=
  match scopes st with [] => st | s :: r => mkstate (overrides st) (installed st) (mkscope (s_label s) (s_noleak s) (s_pieces s ++ [(k, false)]) :: r) end.
(** the scope an allocation is charged to (h2_stack.cpp:28) *)
Definition top_label (st : state) : option N := match scopes st with [] => None | s :: _ => Some (s_label s) end.
(** h2_piece::free for the first piece found: released for the first time or not (h2_piece.cpp:171-178; h2_block.cpp:98-109) *)
Fixpoint mark (k : N) (ps : list (N * bool)) : option (list (N * bool) * bool) :=
  match ps with
  | [] => None
  | (k1, f) :: r => if k1 =? k then Some ((k1, true) :: r, f) else option_map (fun x => ((k1, f) :: fst x, snd x)) (mark k r)
  end.
(** h2_stack::rel_piece (h2_stack.cpp:32-42) *)
Fixpoint release (k : N) (ss : list scope) : option (list scope * bool) :=
  match ss with
  | [] => None
  | s :: r =>
      match mark k (s_pieces s) with
      | Some (ps, f) => Some (mkscope (s_label s) (s_noleak s) ps :: r, f)
      | None => option_map (fun x => (s :: fst x, snd x)) (release k r)
      end
  end.
(** does the C library know the memory (its own free, h2_override.cpp:84): it does not know that of a piece (h2_piece.cpp:21-41) *)
Definition ours (k : N) (st : state) : bool := existsb (fun s => existsb (fun p => fst p =? k) (s_pieces s)) (scopes st).
(** h2_runner::failing, h2_case::failing (h2_runner.cpp:203-208, h2_case.cpp:26-35) *)
Definition failing (o : opts) (warning : bool) : outcome := if o_continue o || warning then Normal else Jumped.

(** statements in order, until one does not end normally (C++; the body of a case, h2_core.hpp:13-19) *)
Definition in_order (f : stmt -> state -> outcome * state * list event) : list stmt -> state -> outcome * state * list event :=
  fix go (b : list stmt) (st : state) {struct b} : outcome * state * list event :=
    match b with
    | [] => (Normal, st, [])
    | s :: r =>
        match f s st with
        | (Normal, st1, e1) => match go r st1 with (out, st2, e2) => (out, st2, e1 ++ e2) end
        | other => other
        end
    end.
(** the end of a block reached normally or by an exception (h2_memory.cpp:69-73); a failure jumps away before the watching is switched on again *)
Definition leave (o : opts) (unmem : bool) (r : outcome * state * list event) : outcome * state * list event :=
  match r with
  | (Jumped, _, _) | (Broken, _, _) => r
  | (out, st1, e) =>
      match pop st1 with
      | None => (Broken, st1, e)
      | Some (st2, l, ks) =>
          match (match ks with [] => Normal | _ => failing o (o_leak_warning o) end) with
          | Normal => (out, if unmem then hook o true st2 else st2, e ++ [Ended l ks])
          | other => (other, st2, e ++ [Ended l ks])
          end
      end
  end.
(** a statement (as cited at the constructors; the block is entered at h2_memory.cpp:63-68) *)
Fixpoint exec (o : opts) (s : stmt) (st : state) {struct s} : outcome * state * list event :=
  match s with
  | SAlloc k => if watching st then (Normal, add_piece k st, [Seen k (top_label st)]) else (Normal, st, [Seen k None])
  | SFree k =>
      if watching st then
        match release k (scopes st) with
        | None => (Normal, st, [Unknown k])
        | Some (ss, false) => (Normal, mkstate (overrides st) (installed st) ss, [Freed k])
        | Some (ss, true) => (failing o false, mkstate (overrides st) (installed st) ss, [Twice k])
        end
      else if ours k st then (Broken, st, [])
      else (Normal, st, [])
  | SHelp => (Normal, hook o true (hook o false st), [])
  | SFail => (failing o false, st, [])
  | SThrow => (Thrown, hook o true (hook o false st), [])
  | STry b => match in_order (exec o) b st with (Thrown, st1, e) => (Normal, st1, e) | other => other end
  | SBlock l unmem noleak b => leave o unmem (in_order (exec o) b (push l noleak (if unmem then hook o false st else st)))
  end.
(** code (h2_core.hpp:8-19) *)
Definition run_code (o : opts) : list stmt -> state -> outcome * state * list event := in_order (exec o).

(** a case: what Setup and the body do, and what Cleanup does afterwards, if there is one (h2_core.hpp:8-19) *)
Record case_ := mkcase { c_label : N; c_body : list stmt; c_cleanup : list stmt }.
(** h2_suite::test (source/core/h2_suite.cpp:32-44) with h2_case::prev_setup and post_cleanup, then h2_case::clear (h2_case.cpp:1-24).
    A check that fails in the clean-up code is not followed *)
Definition run_case (o : opts) (c : case_) (st : state) : outcome * state * list event :=
  match run_code o (c_body c) (push (c_label c) false st) with
  | (Broken, st1, e1) => (Broken, st1, e1)
  | (_, st1, e1) =>
      match run_code o (c_cleanup c) st1 with
      | (Jumped, st2, e2) | (Broken, st2, e2) => (Broken, st2, e1 ++ e2)
      | (_, st2, e2) =>
          match pop st2 with
          | None => (Broken, st2, e1 ++ e2)
          | Some (st3, l, ks) => (Normal, hook o true st3, e1 ++ e2 ++ [Ended l ks])
          end
      end
  end.
(** the cases of a suite (source/core/h2_runner.cpp:143-161) *)
Fixpoint run_cases (o : opts) (cs : list case_) (st : state) : outcome * state * list (list event) :=
  match cs with
  | [] => (Normal, st, [])
  | c :: r =>
      match run_case o c st with
      | (Normal, st1, e1) => match run_cases o r st1 with (out, st2, es) => (out, st2, e1 :: es) end
      | (out, st1, e1) => (out, st1, [e1])
      end
  end.
(** h2_memory::initialize (h2_memory.cpp:18-23), then h2_suite::setup (h2_suite.cpp:12-16); 0 and 1 are the places of these scopes *)
Definition start (o : opts) : state := push 1 false (push 0 false (hook o true (mkstate false 0 []))).
