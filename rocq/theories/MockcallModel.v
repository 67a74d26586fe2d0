(** Model of a call of a mocked function: function_stub with what it calls (source/mock/h2_mocker.hpp:37-50, 106-121, source/mock/h2_routine.hpp,
    source/stub/h2_temporary.cpp). User code is a program that calls functions; what stands at a function is either its own code or the jump to the
    stub (bytes are the Stub area); user code does not itself stub, mock or unmock. *)
From Coq Require Import List Arith Bool ZArith.
From Verif Require Import MockModel.
Import ListNotations.

(** what user code does (not in the code; for h2_mocker.hpp:37-44): return a value, throw, leave the case by longjmp because of a failed check
    (h2_case.cpp:33), or call a function with an object and arguments and go on with its result (None: it threw) *)
Inductive prog (V : Type) := Ret (v : V) | Throw | Leave | Call (f : nat) (this : V) (args : list V) (rest : option V -> prog V).
Arguments Ret {V}. Arguments Throw {V}. Arguments Leave {V}. Arguments Call {V}.
(** how a call ends (not in the code; for h2_mocker.hpp:37-44) *)
Inductive ending (V : Type) := Returned (v : V) | Thrown | Left.
Arguments Returned {V}. Arguments Thrown {V}. Arguments Left {V}.
(** a call, the calls made inside it, and how it ended (not in the code; for h2_mocker.hpp:37-44) *)
Inductive tree (V : Type) := Node (f : nat) (this : V) (args : list V) (inner : list (tree V)) (e : ending V).
Arguments Node {V}.

(** h2_routine (h2_routine.hpp:10-14); null pointers are None *)
Record routine (V : Type) := mkroutine { fp : option (list V -> prog V); mfp : option (V -> list V -> prog V); ret : option V }.
Arguments mkroutine {V}. Arguments fp {V}. Arguments mfp {V}. Arguments ret {V}.
(** h2_routine(ReturnType r) (h2_routine.hpp:17) *)
Definition of_value {V} (v : V) : routine V := mkroutine None None (Some v).
(** h2_routine(f) with parameters only (h2_routine.hpp:18, 47; h2_mocker.hpp:220) *)
Definition of_function {V} (g : list V -> prog V) : routine V := mkroutine (Some g) None None.
(** h2_routine(f) with the object before the parameters (h2_routine.hpp:19, 48; h2_mocker.hpp:227) *)
Definition of_method {V} (g : V -> list V -> prog V) : routine V := mkroutine None (Some g) None.
(** operator() (h2_routine.hpp:21-28, 50-54); an empty one is never called: None *)
Definition invoke {V} (r : routine V) (this : V) (args : list V) : option (prog V) :=
  match mfp r with
  | Some g => Some (g this args)
  | None => match fp r with
            | Some g => Some (g args)
            | None => match ret r with Some v => Some (Ret v) | None => None end
            end
  end.

(** the mocks, and whether the jump to the stub stands at a function (h2_mocker.hpp:33-35, 95-121) *)
Record world (V : Type) := mkworld { mocks : nat -> mocker V (routine V); armed : nat -> bool }.
Arguments mkworld {V}. Arguments mocks {V}. Arguments armed {V}.
(** one place of a table (not in the code; for h2_mocker.hpp:33-35) *)
Definition put {A} (t : nat -> A) (f : nat) (a : A) : nat -> A := fun g => if g =? f then a else t g.

(** the routine that function_stub calls (h2_mocker.hpp:41-43), [own]: the functions themselves, as original.fp and original.mfp (h2_mocker.hpp:108-114) *)
Definition called {V} (own : nat -> routine V) (f : nat) (c : callee (routine V)) : routine V := match c with Original => own f | Routine r => r end.

(** a call (h2_mocker.hpp:37-50) in user code, and user code as it goes on. [ab]: failures leave the case (not -c). None: out of fuel, or an empty routine called *)
Fixpoint run {V} (fuel : nat) (ab : bool) (own : nat -> routine V) (w : world V) (p : prog V) : option (world V * list (tree V) * ending V) :=
  match fuel with
  | O => None
  | S n =>
      match p with
      | Ret v => Some (w, [], Returned v)
      | Throw => Some (w, [], Thrown)
      | Leave => Some (w, [], Left)
      | Call f this args rest =>
          match
            (if armed w f then
               let (k, o) := matches ab (mocks w f) args in                                   (* :39 *)
               let w1 := mkworld (put (mocks w) f k) (armed w) in
               match dispatch k o with
               | None => Some (w1, [], Left)
               | Some c =>
                   match invoke (called own f c) this args with
                   | None => None
                   | Some q =>
                       match run n ab own (mkworld (mocks w1) (put (armed w1) f false)) q with  (* :40 h2_stub_temporary_restore *)
                       | Some (w2, ts, Left) => Some (w2, ts, Left)                             (* longjmp: ~h2_stub_temporary_restore does not run *)
                       | Some (w2, ts, e) => Some (mkworld (mocks w2) (put (armed w2) f true), ts, e)
                       | None => None
                       end
                   end
               end
             else match invoke (own f) this args with None => None | Some q => run n ab own w q end)
          with
          | None => None
          | Some (w1, ts, Left) => Some (w1, [Node f this args ts Left], Left)
          | Some (w1, ts, e) =>
              match run n ab own w1 (rest (match e with Returned v => Some v | _ => None end)) with
              | Some (w2, ts', e') => Some (w2, Node f this args ts e :: ts', e')
              | None => None
              end
          end
      end
  end.
