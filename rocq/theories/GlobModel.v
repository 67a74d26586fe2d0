(** Model of the built-in wildcard matcher, source/utils/h2_pattern.cpp:16-38 (Windows/Cygwin build).
    C string pointers are represented by the suffix of the string they point at. *)
From Coq Require Import List NArith Bool Arith.
From Verif Require Import Base.
Import ListNotations.
Local Open Scope N_scope.

(** [*p] of a pointer into a NUL terminated string (h2_pattern.cpp:21-28). *)
Definition deref (p : bytes) : byte := hd 0 p.

(** the four cursors (h2_pattern.cpp:19-20); [star] is None while pstar is null. *)
Record gstate := mkg { scur : bytes; pcur : bytes; star : option (bytes * bytes) (* pstar, sstar *) }.

(** outcome of one iteration (h2_pattern.cpp:21-36: return, next turn or end of the while loop) *)
Inductive gout := GReturn (b : bool) | GNext (st : gstate) | GExit (st : gstate).

(** one evaluation of the while condition and body (h2_pattern.cpp:21-35) *)
Definition gstep (caseless : bool) (st : gstate) : gout :=
  if deref (scur st) =? 0 then GExit st
  else if deref (pcur st) =? 63 (* '?' *) then GNext (mkg (tl (scur st)) (tl (pcur st)) (star st))
  else if deref (pcur st) =? 42 (* '*' *) then GNext (mkg (scur st) (tl (pcur st)) (Some (pcur st, scur st)))
  else if char_eq caseless (deref (scur st)) (deref (pcur st)) then GNext (mkg (tl (scur st)) (tl (pcur st)) (star st))
  else match star st with
       | Some (pstar, sstar) => GNext (mkg (tl sstar) (tl pstar) (Some (pstar, tl sstar)))
       | None => GReturn false
       end.

(** the trailing loop and result (h2_pattern.cpp:37-38) *)
Fixpoint gfinal (p : bytes) : bool :=
  match p with
  | [] => true
  | c :: p' => if c =? 42 then gfinal p' else c =? 0
  end.

(** the while loop; None = still running after [fuel] iterations (h2_pattern.cpp:21-38) *)
Fixpoint grun (caseless : bool) (fuel : nat) (st : gstate) : option bool :=
  match fuel with
  | O => None
  | S fuel' =>
      match gstep caseless st with
      | GReturn b => Some b
      | GExit st' => Some (gfinal (pcur st'))
      | GNext st' => grun caseless fuel' st'
      end
  end.

(** wildcard_match (h2_pattern.cpp:16-38) given an iteration budget *)
Definition wildcard_match (caseless : bool) (fuel : nat) (pattern subject : bytes) : option bool :=
  grun caseless fuel (mkg subject pattern None).
