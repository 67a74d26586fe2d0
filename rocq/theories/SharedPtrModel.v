(** Model of h2_shared_ptr, source/utils/h2_shared_ptr.hpp. Objects and counters are identified by numbers. *)
From Coq Require Import List ZArith Bool Arith.
Import ListNotations.

(** the two fields (h2_shared_ptr.hpp:34-35); None = nullptr *)
Record sp := mksp { px : option nat; pn : option nat }.
(** default constructor (h2_shared_ptr.hpp:3,34-35) *)
Definition sp_null : sp := mksp None None.

(** memory: reference counters (None = not allocated / freed), objects deleted so far (latest first),
    next unused counter address (h2_shared_ptr.hpp:21, 26-28) *)
Record mem := mkmem { cnt : nat -> option Z; deleted : list nat; fresh : nat }.

(** assignment of a counter cell (h2_shared_ptr.hpp:21, 26) *)
Definition set_cnt (m : mem) (c : nat) (v : option Z) : mem :=
  mkmem (fun x => if Nat.eqb x c then v else cnt m x) (deleted m) (fresh m).

(** acquire (h2_shared_ptr.hpp:18-23); None = access to a freed counter (undefined behaviour) *)
Definition acquire (m : mem) (p : option nat) (n : option nat) : option (mem * sp) :=
  match p with
  | None => Some (m, mksp None n)
  | Some o =>
      match n with
      | Some c => match cnt m c with
                  | Some k => Some (set_cnt m c (Some (k + 1)%Z), mksp p n)
                  | None => None
                  end
      | None => Some (mkmem (fun x => if Nat.eqb x (fresh m) then Some 1%Z else cnt m x) (deleted m) (S (fresh m)),
                      mksp p (Some (fresh m)))
      end
  end.

(** release (h2_shared_ptr.hpp:24-32); None = access to a freed counter or deletion of a deleted object *)
Definition release (m : mem) (v : sp) : option mem :=
  match pn v with
  | None => Some m
  | Some c =>
      match cnt m c with
      | None => None
      | Some k =>
          if (k - 1 =? 0)%Z then
            match px v with
            | None => Some (set_cnt m c None)
            | Some o => if existsb (Nat.eqb o) (deleted m) then None
                        else Some (mkmem (fun x => if Nat.eqb x c then None else cnt m x) (o :: deleted m) (fresh m))
            end
          else Some (set_cnt m c (Some (k - 1)%Z))
      end
  end.

(** operator bool (h2_shared_ptr.hpp:14) *)
Definition sp_bool (m : mem) (v : sp) : bool :=
  match pn v with
  | None => false
  | Some c => match cnt m c with Some k => (0 <? k)%Z | None => false end
  end.

(** named handles in scope (variables of type h2_shared_ptr, h2_shared_ptr.hpp:2) *)
Record state := mkst { mm : mem; handles : list (nat * sp) }.
(** no handles, nothing allocated (before any use of h2_shared_ptr.hpp:3-7) *)
Definition init : state := mkst (mkmem (fun _ => None) [] 0) [].

(** the handle variable named h (this or that of h2_shared_ptr.hpp:4-7) *)
Fixpoint lookup (h : nat) (l : list (nat * sp)) : option sp :=
  match l with [] => None | (n, v) :: r => if Nat.eqb n h then Some v else lookup h r end.
(** end of scope of the variable h (h2_shared_ptr.hpp:6) *)
Fixpoint remove (h : nat) (l : list (nat * sp)) : list (nat * sp) :=
  match l with [] => [] | (n, v) :: r => if Nat.eqb n h then r else (n, v) :: remove h r end.

(** what a program does with handles (the members of h2_shared_ptr.hpp:3-16) *)
Inductive op :=
| New (h : nat) (o : option nat)  (* h2_shared_ptr<T> h(raw pointer)   (h2_shared_ptr.hpp:3-4) *)
| Copy (h g : nat)                (* h2_shared_ptr<T> h(g)             (h2_shared_ptr.hpp:5) *)
| Assign (h g : nat)              (* h = g                             (h2_shared_ptr.hpp:7-12) *)
| AssignNew (h : nat) (o : nat)   (* h = h2_shared_ptr<T>(raw pointer) (h2_shared_ptr.hpp:4,7-12) *)
| Reset (h : nat)                 (* h.reset()                         (h2_shared_ptr.hpp:13) *)
| Drop (h : nat).                 (* ~h2_shared_ptr()                  (h2_shared_ptr.hpp:6) *)

(** one operation. In an assignment the by-value parameter [that] is a temporary: it is copy (or directly) constructed,
    swapped with the target, and destroyed holding the target's old value (h2_shared_ptr.hpp:7-12).
    None = undefined behaviour or ill-formed program (unknown or redeclared handle). *)
Definition step (st : state) (o : op) : option state :=
  match o with
  | New h p =>
      match lookup h (handles st) with
      | Some _ => None
      | None => match acquire (mm st) p None with
                | Some (m, v) => Some (mkst m ((h, v) :: handles st))
                | None => None
                end
      end
  | Copy h g =>
      match lookup h (handles st), lookup g (handles st) with
      | None, Some w => match acquire (mm st) (px w) (pn w) with
                        | Some (m, v) => Some (mkst m ((h, v) :: handles st))
                        | None => None
                        end
      | _, _ => None
      end
  | Assign h g =>
      match lookup h (handles st), lookup g (handles st) with
      | Some old, Some w =>
          match acquire (mm st) (px w) (pn w) with
          | Some (m, that) => match release m old with
                              | Some m' => Some (mkst m' ((h, that) :: remove h (handles st)))
                              | None => None
                              end
          | None => None
          end
      | _, _ => None
      end
  | AssignNew h o =>
      match lookup h (handles st) with
      | Some old =>
          match acquire (mm st) (Some o) None with
          | Some (m, that) => match release m old with
                              | Some m' => Some (mkst m' ((h, that) :: remove h (handles st)))
                              | None => None
                              end
          | None => None
          end
      | None => None
      end
  | Reset h =>
      match lookup h (handles st) with
      | Some old => match release (mm st) old with
                    | Some m' => Some (mkst m' ((h, sp_null) :: remove h (handles st)))
                    | None => None
                    end
      | None => None
      end
  | Drop h =>
      match lookup h (handles st) with
      | Some old => match release (mm st) old with
                    | Some m' => Some (mkst m' (remove h (handles st)))
                    | None => None
                    end
      | None => None
      end
  end.

(** a program: a sequence of operations (h2_shared_ptr.hpp:3-16) *)
Fixpoint run (st : state) (os : list op) : option state :=
  match os with
  | [] => Some st
  | o :: r => match step st o with Some st' => run st' r | None => None end
  end.
