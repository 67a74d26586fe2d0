(** Model of the intrusive doubly linked list, source/utils/h2_list.hpp and source/utils/h2_list.cpp.
    A heap maps node addresses to their two link fields; every statement is executed in source order on the heap, so
    aliasing (a node being its own neighbour, the head being an element) is handled as in the program. *)
From Coq Require Import List ZArith NArith Bool Arith.
Import ListNotations.

(** address of an h2_list node (h2_list.hpp:16-17) *)
Notation addr := nat (only parsing).

(** the fields next and prev of every node (h2_list.hpp:17) *)
Record heap := mkheap { nx : addr -> addr; pv : addr -> addr }.

(** assignment to one field (the assignments of h2_list.cpp:1-46) *)
Definition upd (f : addr -> addr) (a v : addr) : addr -> addr := fun x => if Nat.eqb x a then v else f x.
(** [a->next = v] (h2_list.cpp:4,6,35,37) *)
Definition set_nx (H : heap) (a v : addr) : heap := mkheap (upd (nx H) a v) (pv H).
(** [a->prev = v] (h2_list.cpp:3,5,36,37) *)
Definition set_pv (H : heap) (a v : addr) : heap := mkheap (nx H) (upd (pv H) a v).

(** constructor h2_list() (h2_list.hpp:19) *)
Definition list_init (H : heap) (a : addr) : heap := set_pv (set_nx H a a) a a.

(** add_between (h2_list.cpp:1-7) *)
Definition add_between (H : heap) (thus prev next : addr) : heap :=
  let H := set_pv H next thus in
  let H := set_nx H thus next in
  let H := set_pv H thus prev in
  set_nx H prev thus.

(** add_head (h2_list.cpp:9-13), push (h2_list.hpp:27), add_after (h2_list.cpp:27-31) *)
Definition add_after (H : heap) (this entry : addr) : heap := add_between H entry this (nx H this).
(** push (h2_list.hpp:27) *)
Definition push := add_after.
(** add_tail (h2_list.cpp:15-19), add_before (h2_list.cpp:21-25) *)
Definition add_before (H : heap) (this entry : addr) : heap := add_between H entry (pv H this) this.
(** push_back (h2_list.hpp:26) *)
Definition push_back := add_before.

(** out (h2_list.cpp:33-39) *)
Definition out (H : heap) (this : addr) : heap :=
  let H := set_nx H (pv H this) (nx H this) in
  let H := set_pv H (nx H this) (pv H this) in
  let H := set_pv H this this in
  set_nx H this this.

(** pop / pop_back (h2_list.hpp:28-29): returns the removed node *)
Definition pop (H : heap) (this : addr) : heap * addr := (out H (nx H this), nx H this).
(** pop_back (h2_list.hpp:29) *)
Definition pop_back (H : heap) (this : addr) : heap * addr := (out H (pv H this), pv H this).

(** empty (h2_list.hpp:36) *)
Definition empty (H : heap) (this : addr) : bool := Nat.eqb (nx H this) this.
(** is_first (h2_list.hpp:31) *)
Definition is_first (H : heap) (this e : addr) : bool := Nat.eqb (nx H this) e.
(** is_last (h2_list.hpp:32) *)
Definition is_last (H : heap) (this e : addr) : bool := Nat.eqb (pv H this) e.
(** h2_list_top_entry (h2_list.hpp:13): None for the null pointer *)
Definition top_entry (H : heap) (this : addr) : option addr := if empty H this then None else Some (nx H this).
(** h2_list_bottom_entry (h2_list.hpp:14) *)
Definition bottom_entry (H : heap) (this : addr) : option addr := if empty H this then None else Some (pv H this).
(** h2_list_pop_entry (h2_list.hpp:12) *)
Definition pop_entry (H : heap) (this : addr) : heap * option addr := if empty H this then (H, None) else (fst (pop H this), Some (snd (pop H this))).

(** forward traversal [for (p = next; p != this; p = p->next)] (h2_list.cpp:44), collecting the nodes;
    None when the budget is exhausted *)
Fixpoint walk (fuel : nat) (H : heap) (this p : addr) : option (list addr) :=
  match fuel with
  | O => None
  | S fuel' => if Nat.eqb p this then Some []
               else match walk fuel' H this (nx H p) with Some l => Some (p :: l) | None => None end
  end.
(** the entries in order (from head.next until the head comes back, h2_list.hpp:5) *)
Definition traverse (fuel : nat) (H : heap) (this : addr) := walk fuel H this (nx H this).

(** backward traversal, h2_list_for_each_reverse_entry (h2_list.hpp:9-10) *)
Fixpoint walk_back (fuel : nat) (H : heap) (this p : addr) : option (list addr) :=
  match fuel with
  | O => None
  | S fuel' => if Nat.eqb p this then Some []
               else match walk_back fuel' H this (pv H p) with Some l => Some (p :: l) | None => None end
  end.
(** the entries in reverse order (from head.prev until the head comes back, h2_list.hpp:9-10) *)
Definition traverse_back (fuel : nat) (H : heap) (this : addr) := walk_back fuel H this (pv H this).

(** count (h2_list.cpp:41-46) *)
Definition count (fuel : nat) (H : heap) (this : addr) : option nat := option_map (@List.length addr) (traverse fuel H this).

(** h2_list_for_each_entry (h2_list.hpp:3-8): p and the look-ahead t; the body removes p from the list when
    [drop p] holds (as the clear() functions of stubs, mocks, dnses, pieces do). Returns the nodes visited. *)
Fixpoint for_each (fuel : nat) (drop : addr -> bool) (H : heap) (this p t : addr) : option (heap * list addr) :=
  match fuel with
  | O => None
  | S fuel' =>
      if Nat.eqb p this then Some (H, [])
      else let H' := if drop p then out H p else H in
           match for_each fuel' drop H' this t (nx H' t) with
           | Some (H'', l) => Some (H'', p :: l)
           | None => None
           end
  end.
(** h2_list_for_each_entry with a body that may take the current entry out (h2_list.hpp:4-5) *)
Definition for_each_entry (fuel : nat) (drop : addr -> bool) (H : heap) (this : addr) :=
  for_each fuel drop H this (nx H this) (nx H (nx H this)).

Section Sort.
  (** the comparison function (the argument of h2_list::sort, h2_list.cpp:48) *)
  Variable cmp : addr -> addr -> Z.

  (** search of the insertion point (h2_list.cpp:54-56) *)
  Fixpoint scan (fuel : nat) (H : heap) (sorted p q : addr) : option addr :=
    match fuel with
    | O => None
    | S fuel' => if Nat.eqb q sorted then Some q
                 else if (0 <? cmp q p)%Z then Some q
                 else scan fuel' H sorted p (nx H q)
    end.

  (** first loop of sort (h2_list.cpp:52-58); [budget] bounds each inner search *)
  Fixpoint sort_insert (budget fuel : nat) (H : heap) (this sorted : addr) : option heap :=
    match fuel with
    | O => None
    | S fuel' =>
        if empty H this then Some H
        else let (H1, p) := pop H this in
             match scan budget H1 sorted p (nx H1 sorted) with
             | Some q => sort_insert budget fuel' (add_before H1 q p) this sorted
             | None => None
             end
    end.

  (** second loop of sort (h2_list.cpp:59) *)
  Fixpoint sort_move (fuel : nat) (H : heap) (this sorted : addr) : option heap :=
    match fuel with
    | O => None
    | S fuel' =>
        if empty H sorted then Some H
        else let (H1, p) := pop H sorted in sort_move fuel' (push_back H1 this p) this sorted
    end.

  (** sort (h2_list.cpp:48-60); [sorted] is the address of the local list head *)
  Definition sort (fuel : nat) (H : heap) (this sorted : addr) : option heap :=
    match sort_insert fuel fuel (list_init H sorted) this sorted with
    | Some H' => sort_move fuel H' this sorted
    | None => None
    end.
End Sort.
