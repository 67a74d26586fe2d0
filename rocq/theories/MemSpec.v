(** Histories of the checked heap and questions about a history, answered by looking at the history only. *)
From Coq Require Import List NArith Bool.
From Verif Require Import Base PieceModel PieceSpec MemModel.
Import ListNotations.
Local Open Scope N_scope.

Definition entry : Type := event * outcome.
(** newest entry first *)
Definition trace := list entry.

(** was the pointer released since it was last handed out? *)
Fixpoint released (tr : trace) (ptr : N) : bool :=
  match tr with
  | [] => false
  | (Rel _ q, _) :: r => if q =? ptr then true else released r ptr
  | (Alloc _ _ _ _ _ _, OPtr (Some q)) :: r => if q =? ptr then false else released r ptr
  | _ :: r => released r ptr
  end.

(** the allocation function, size and call stack of the last allocation that returned the pointer *)
Fixpoint latest_alloc (tr : trace) (ptr : N) : option (list N * N * N) :=
  match tr with
  | [] => None
  | (Alloc who size _ _ bt _, OPtr (Some q)) :: r => if q =? ptr then Some (who, size, bt) else latest_alloc r ptr
  | _ :: r => latest_alloc r ptr
  end.

Section S.
Variable ps : N.
Variable ex : N -> bool.

(** (pointer, size, call stack) of the successful allocations charged to the i-th innermost open scope, newest first.
    Allocations from exempted functions are charged to the outermost scope. *)
Fixpoint owned (outermost : bool) (tr : trace) (i : nat) : list (N * N * N) :=
  match tr with
  | [] => []
  | (Pop, _) :: r => owned outermost r (S i)
  | (Push _, _) :: r => match i with O => [] | S j => owned outermost r j end
  | (Alloc _ size _ _ bt _, OPtr (Some q)) :: r =>
      if (if ex bt then outermost else Nat.eqb i 0) then (q, size, bt) :: owned outermost r i else owned outermost r i
  | _ :: r => owned outermost r i
  end.

(** attributes of the i-th innermost open scope *)
Fixpoint scope_attrs (tr : trace) (i : nat) : option attrs :=
  match tr with
  | [] => None
  | (Pop, _) :: r => scope_attrs r (S i)
  | (Push a, _) :: r => match i with O => Some a | S j => scope_attrs r j end
  | _ :: r => scope_attrs r i
  end.

(** number of open scopes *)
Fixpoint depth (tr : trace) : nat :=
  match tr with
  | [] => O
  | (Pop, _) :: r => pred (depth r)
  | (Push _, _) :: r => S (depth r)
  | _ :: r => depth r
  end.
Definition is_outermost (tr : trace) (i : nat) : bool := Nat.eqb (S i) (depth tr).

(** allocations of the scope that have not been released *)
Definition unreleased (tr : trace) (i : nat) : list (N * N * N) :=
  filter (fun a => negb (released tr (fst (fst a)))) (owned (is_outermost tr i) tr i).
Definition bytes_of (l : list (N * N * N)) : N := fold_right (fun a s => snd (fst a) + s) 0 l.
Definition live_bytes (tr : trace) (i : nat) : N := bytes_of (unreleased tr i).

(** highest number of live bytes of the i-th innermost open scope since it was opened *)
Fixpoint peak (tr : trace) (i : nat) : N :=
  match tr with
  | [] => 0
  | (Pop, _) :: r => peak r (S i)
  | (Push _, _) :: r => match i with O => 0 | S j => peak r j end
  | e :: r => N.max (live_bytes (e :: r) i) (peak r i)
  end.

(** nobody was told about a double free *)
Definition no_double_report (tr : trace) : Prop :=
  forall e ptr, In (e, OFail (Some (FDouble ptr))) tr -> False.

(** the scope an allocation with this call stack is charged to *)
Definition target (st : state) (bt : N) : option block :=
  if ex bt then hd_error (rev (blocks st)) else hd_error (blocks st).

(** the mapping [base, base + accessible pages + guard page) is page aligned, inside the address space and
    disjoint from the mappings of all pieces known to the stack *)
Definition fresh_mapping (st : state) (base size al : N) : Prop :=
  0 < base /\ base mod ps = 0 /\ guard ps base size al + ps + al < 2 ^ 64 /\
  forall b p, In b (blocks st) -> In p (b_pieces b) ->
    guard ps base size al + ps <= p_page p \/ p_grd p + ps <= base.

(** what the environment guarantees for one event *)
Definition enabled (st : state) (e : event) : Prop :=
  match e with
  | Pop => blocks st <> []
  | Alloc who size al fill bt base =>
      size < 2 ^ 52 /\
      forall b, target st bt = Some b ->
        let al' := if al =? 0 then a_align (b_attrs b) else al in
        al' < 2 ^ 32 /\ fresh_mapping st base size al'
  | _ => True
  end.

Definition init (m : memory) (fl : N) : state := mkstate [] m fl.

(** all executions: any sequence of events, with arbitrary changes of memory contents in between *)
Inductive history : trace -> state -> Prop :=
| h_init : forall m fl, history [] (init m fl)
| h_step : forall tr st e st' o, history tr st -> enabled st e -> step ps ex st e = Some (st', o) -> history ((e, o) :: tr) st'
| h_mem : forall tr st m, history tr st -> history tr (mkstate (blocks st) m (flower st)).

(** C family: malloc/calloc/realloc/posix_memalign/aligned_alloc with free; C++ family: any new with any delete *)
Inductive family := CFam | CppFam.
Inductive allocates : list N -> family -> Prop :=
| al1 : allocates (str "malloc") CFam | al2 : allocates (str "calloc") CFam | al3 : allocates (str "realloc") CFam
| al4 : allocates (str "posix_memalign") CFam | al5 : allocates (str "aligned_alloc") CFam
| al6 : allocates (str "new") CppFam | al7 : allocates (str "new nothrow") CppFam
| al8 : allocates (str "new[]") CppFam | al9 : allocates (str "new[] nothrow") CppFam.
Inductive releases : list N -> family -> Prop :=
| re1 : releases (str "free") CFam
| re2 : releases (str "delete") CppFam | re3 : releases (str "delete nothrow") CppFam
| re4 : releases (str "delete[]") CppFam | re5 : releases (str "delete[] nothrow") CppFam.
Definition corresponds (who_alloc who_rel : list N) : Prop := exists f, allocates who_alloc f /\ releases who_rel f.

(** a pointer the stack knows *)
Definition tracked (st : state) (ptr : N) : Prop := exists b p, In b (blocks st) /\ In p (b_pieces b) /\ p_ptr p = ptr.

(** all limits in force are sensible (below 2^63 bytes) *)
Definition limits_ok (tr : trace) : Prop := forall a o, In (Push a, o) tr -> a_limit a < 2 ^ 63.

(** the scope an allocation is charged to: innermost, or outermost for exempted call stacks *)
Definition charged (tr : trace) (bt : N) : nat := if ex bt then (depth tr - 1)%nat else 0%nat.

(** executions from a state on, following the index of a scope that stays open *)
Inductive run : state -> nat -> list event -> state -> nat -> Prop :=
| run_nil : forall st i, run st i [] st i
| run_cons : forall st i e st1 o i1 es st2 i2,
    enabled st e -> step ps ex st e = Some (st1, o) ->
    (match e with Push _ => i1 = S i | Pop => i = S i1 | _ => i1 = i end) ->
    run st1 i1 es st2 i2 -> run st i (e :: es) st2 i2.

End S.

(** number of times a size is listed in one group of a leak report *)
Fixpoint sizes_count (l : list (N * N)) (s : N) : N :=
  match l with [] => 0 | (x, n) :: r => (if x =? s then n else 0) + sizes_count r s end.
(** how many of the given allocations come from this call stack and have this size; their total size *)
Definition count_bs (l : list (N * N * N)) (bt s : N) : N :=
  N.of_nat (length (filter (fun a => (snd a =? bt) && (snd (fst a) =? s)) l)).
Definition bytes_bt (l : list (N * N * N)) (bt : N) : N := bytes_of (filter (fun a => snd a =? bt) l).

(** what a leak report says: the groups as (call stack, total, sizes) *)
Definition leak_of (f : fail) : option (N * N * list (N * N)) :=
  match f with FLeak _ total sizes bt => Some (bt, total, sizes) | _ => None end.
Definition leak_bt (f : fail) : option N := option_map (fun x => fst (fst x)) (leak_of f).

(** events touching [lo, hi) *)
Definition touches (lo hi : N) (e : event) : Prop :=
  match e with Load a _ => within a lo hi | Store a _ _ => within a lo hi | _ => False end.

Definition is_access (e : event) (a : N) (w : bool) (bt : N) : Prop :=
  (w = false /\ e = Load a bt) \/ (w = true /\ exists v, e = Store a v bt).

