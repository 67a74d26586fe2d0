(** Model of failure trees: h2_fail with its two links and append_subling, append_child, foreach and the destructor
    (source/report/h2_failure.hpp:1-33, source/report/h2_failure.cpp:1-28). *)
From Coq Require Import List ZArith Bool.
Import ListNotations.
Local Open Scope Z_scope.

(** h2_fail* (h2_failure.hpp:2, 17): nullptr or a node with a label (standing for its type and text), seqno, child_next and
    subling_next *)
Inductive fail := Null | Fail (label : Z) (seqno : Z) (child sibling : fail).
(** a new failure without links (h2_failure.hpp:2, 17, 20) *)
Definition new_fail (label : Z) : fail := Fail label (-1) Null Null.
(** h2_fail::append_subling (h2_failure.cpp:1-8) *)
Fixpoint append_subling (fails f : fail) : fail :=
  match fails with Null => f | Fail l s c b => Fail l s c (append_subling b f) end.
(** h2_fail::append_child (h2_failure.cpp:1-6, 9) *)
Fixpoint append_child (fails f : fail) : fail :=
  match fails with Null => f | Fail l s c b => Fail l s (append_child c f) b end.
(** h2_fail::foreach (h2_failure.cpp:23-28): label, seqno, si, ci of each call *)
Fixpoint foreach (f : fail) (si ci : nat) : list (Z * Z * nat * nat) :=
  match f with
  | Null => []
  | Fail l s c b => (l, s, si, ci) :: foreach c 0 (S ci) ++ foreach b (S si) ci
  end.
(** h2_fail::~h2_fail (h2_failure.cpp:11-15): the nodes released, in order (a node's memory after its links') *)
Fixpoint destroy (f : fail) : list (Z * Z) :=
  match f with Null => [] | Fail l s c b => destroy c ++ destroy b ++ [(l, s)] end.
(** fail->seqno = i (h2_matches_logic.hpp:118, 156, 192) *)
Definition set_seqno (f : fail) (i : Z) : fail := match f with Null => Null | Fail l _ c b => Fail l i c b end.
(** is it nullptr (h2_failure.cpp:2, 13-14, 26-27) *)
Definition isnull (f : fail) : bool := match f with Null => true | _ => false end.

(** h2_assert::stash (source/assert/h2_assert.cpp:36-53): what is kept, given the matcher's result; labels 2 and 3 for the
    two new_unexpect *)
Definition stash (oppose : bool) (f : fail) : fail :=
  let f1 := if oppose then (match f with Null => new_fail 2 | _ => Null end) else f in
  match f1 with
  | Fail _ _ _ (Fail _ _ _ _) => append_child (new_fail 3) f1
  | _ => f1
  end.
(** assertion counters of h2_runner::asserts (source/core/h2_runner.cpp:210-215): case, suite, whole run *)
Definition count_assert (n : Z * Z * Z) : Z * Z * Z := let '(c, s, r) := n in (c + 1, s + 1, r + 1).
(** one OK or KO: the failure raised (h2_assert.cpp:55-67) and the counters *)
Definition assertion (oppose : bool) (f : fail) (n : Z * Z * Z) : fail * (Z * Z * Z) := (stash oppose f, count_assert n).
