(** What callers may rely on: histories, ranges of addresses, overlap. *)
From Coq Require Import List NArith Bool Arith.
From Verif Require Import LibcModel.
Import ListNotations.
Local Open Scope N_scope.

(** addresses a <= x < a + s *)
Definition inside (x : N) (r : N * N) : Prop := fst r <= x < fst r + snd r.
Definition overlap (r1 r2 : N * N) : Prop := exists x, inside x r1 /\ inside x r2.

(** no two entries (at different positions) of the list share an address *)
Definition pairwise_disjoint (rs : list (N * N)) : Prop :=
  forall i j r1 r2, (i < j)%nat -> nth_error rs i = Some r1 -> nth_error rs j = Some r2 -> ~ overlap r1 r2.

Definition regions (st : state) : list (N * N) := map (fun b => (base b, bytes_ b)) (blocks st).
Definition headers (st : state) : list (N * N) := map (fun b => (base b, 32)) (blocks st).
Definition all_frees (st : state) : list (N * N) := flat_map frees (blocks st).

(** what the system guarantees about a successful mmap: a page aligned, fresh, non-empty region *)
Definition mmap_ok (st : state) (mmap : N -> option N) : Prop :=
  forall n b, mmap n = Some b ->
    0 < n /\ b mod 4096 = 0 /\ 0 < b /\ b + n <= 2 ^ 64 /\ forall r, In r (regions st) -> ~ overlap (b, n) r.

(** histories: any interleaving of allocations (with arbitrary system answers) and frees of live pointers *)
Inductive reachable : state -> Prop :=
| reach_init : reachable init
| reach_malloc : forall st mmap size st' r, reachable st -> mmap_ok st mmap -> size < 2 ^ 64 - 25 ->
    malloc mmap st size = (st', r) -> reachable st'
| reach_free : forall st ptr st', reachable st -> free st ptr = (st', RNull) -> reachable st'.

Definition total (rs : list (N * N)) : N := fold_right (fun r n => snd r + n) 0 rs.
