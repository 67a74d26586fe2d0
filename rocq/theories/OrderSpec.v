(** What shuffling and replaying should achieve. *)
From Coq Require Import List ZArith NArith Bool Arith Permutation Sorted.
From Verif Require Import Base OrderModel.
Import ListNotations.
Local Open Scope Z_scope.

(** the same test (its sequence number may differ) *)
Definition same_test (a b : tt) : Prop := o_id a = o_id b /\ o_name a = o_name b /\ o_file a = o_file b /\ o_line a = o_line b.
Definition same_case (a b : tcase) : Prop := same_test (ct a) (ct b) /\ c_failed a = c_failed b.
(** the same suites with the same cases, in some other order *)
Definition rearranged (ss ss' : list tsuite) : Prop := exists mid,
  Forall2 (fun s m => same_test (st s) (st m) /\ exists cs, Forall2 same_case (u_cases s) cs /\ Permutation cs (u_cases m)) ss mid /\
  Permutation mid ss'.

(** dictionary order *)
Inductive lex_le : bytes -> bytes -> Prop :=
| lex_nil : forall b, lex_le [] b
| lex_lt : forall x y a b, (x < y)%N -> lex_le (x :: a) (y :: b)
| lex_eq : forall x a b, lex_le a b -> lex_le (x :: a) (x :: b).
Definition name_le (a b : tt) : Prop := lex_le (fold_str true (o_name a)) (fold_str true (o_name b)).
Definition name_tie (a b : tt) : bool := bytes_eqb (fold_str true (o_name a)) (fold_str true (o_name b)).
Definition file_le (a b : tt) : Prop :=
  lex_le (fold_str true (o_file a)) (fold_str true (o_file b)) /\
  (fold_str true (o_file a) = fold_str true (o_file b) -> o_line a <= o_line b).
Definition file_tie (a b : tt) : bool := bytes_eqb (fold_str true (o_file a)) (fold_str true (o_file b)) && (o_line a =? o_line b).
(** l' is l sorted by le, ties in their old order *)
Definition sorted_by (le : tt -> tt -> Prop) (tie : tt -> tt -> bool) (l l' : list tt) : Prop :=
  Permutation l l' /\ StronglySorted le l' /\ forall x, filter (tie x) l' = filter (tie x) l.
(** the suites are sorted, and the cases of each *)
Definition all_sorted_by (le : tt -> tt -> Prop) (tie : tt -> tt -> bool) (ss ss' : list tsuite) : Prop :=
  sorted_by le tie (map st ss) (map st ss') /\
  forall s', In s' ss' -> exists s, In s ss /\ st s = st s' /\ sorted_by le tie (map ct (u_cases s)) (map ct (u_cases s')).
(** the tests' names and files are C strings *)
Definition c_strings (ss : list tsuite) : Prop := forall t, (exists s, In s ss /\ (t = st s \/ In t (map ct (u_cases s)))) -> ~ In 0%N (o_name t) /\ ~ In 0%N (o_file t).
(** some arrangement of ss, sequence numbers included *)
Definition arrangement (ss ss' : list tsuite) : Prop := exists mid,
  Forall2 (fun s m => st s = st m /\ Permutation (u_cases s) (u_cases m)) ss mid /\ Permutation mid ss'.

(** *** replay *)
Definition key (c : tcase) : bytes * bytes := (o_file (ct c), o_name (ct c)).
Definition keys (s : tsuite) : list (bytes * bytes) := map key (u_cases s).
Definition sname (s : tsuite) : bytes := o_name (st s).
Definition key_eqb (a b : bytes * bytes) : bool := bytes_eqb (fst a) (fst b) && bytes_eqb (snd a) (snd b).
Definition mem_key (k : bytes * bytes) (l : list (bytes * bytes)) : bool := existsb (key_eqb k) l.
(** the keys of the suite called u *)
Definition keys_of (ss : list tsuite) (u : bytes) : list (bytes * bytes) := flat_map (fun s => if bytes_eqb (sname s) u then keys s else []) ss.
(** names tell suites apart, file and name tell the cases of a suite apart *)
Definition distinct (ss : list tsuite) : Prop := NoDup (map sname ss) /\ forall s, In s ss -> NoDup (keys s).
(** cases of old's suite u still there in now *)
Definition surviving (old now : list tsuite) (u : bytes) : list (bytes * bytes) := filter (fun k => mem_key k (keys_of now u)) (keys_of old u).
(** cases of now's suite u unknown to old *)
Definition fresh (old now : list tsuite) (u : bytes) : list (bytes * bytes) := filter (fun k => negb (mem_key k (keys_of old u))) (keys_of now u).
Definition survives (old now : list tsuite) (u : bytes) : bool := negb (Nat.eqb (length (surviving old now u)) 0).
(** was recorded as failed *)
Definition recorded_failed (old : list tsuite) (u : bytes) (k : bytes * bytes) : Prop :=
  exists s c, In s old /\ sname s = u /\ In c (u_cases s) /\ key c = k /\ c_failed c = true.
(** names that a line of the file can carry *)
Definition line_ok (s : bytes) : Prop := ~ In 0%N s /\ ~ In 10%N s /\ (length s <= 503)%nat.
Definition printable (ss : list tsuite) : Prop :=
  forall s, In s ss -> line_ok (sname s) /\ forall c, In c (u_cases s) -> line_ok (o_file (ct c)) /\ line_ok (o_name (ct c)).
Definition total_cases (ss : list tsuite) : Z := Z.of_nat (length (flat_map u_cases ss)).

(** the order res replays old over now: old suites first in the old order, then the others in the present order; in each
    suite the old cases first in the old order, then the new ones; last-failed marks as recorded *)
Definition replays (old now res : list tsuite) : Prop :=
  map sname res = filter (survives old now) (map sname old) ++ filter (fun u => negb (survives old now u)) (map sname now) /\
  forall s, In s res -> keys s = surviving old now (sname s) ++ fresh old now (sname s) /\
    forall c, In c (u_cases s) -> (c_last c = true <-> recorded_failed old (sname s) (key c) \/
       exists s0 c0, In s0 now /\ In c0 (u_cases s0) /\ o_id (ct c0) = o_id (ct c) /\ sname s0 = sname s /\ key c0 = key c /\ c_last c0 = true).

(** an order file: the record of suites with at least one case, names as a line can carry them *)
Definition order_file (b : bytes) : Prop := exists old, b = save_last_order old /\ printable old /\ total_cases old <> 0.
