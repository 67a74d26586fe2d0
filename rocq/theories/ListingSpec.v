(** What a listing has to show. *)
From Coq Require Import List NArith Bool Arith.
From Verif Require Import Base JunitSpec ListingModel.
Import ListNotations.
Local Open Scope N_scope.

Definition count {A} (p : A -> bool) (l : list A) : N := N.of_nat (length (filter p l)).
(** Bits of the option: 4 suites, 8 cases, 12 todos, 16 tags. *)
Definition suite_listed (lists : N) (g : group) : bool := N.testbit lists 4 && negb (g_absent g) && negb (g_filtered g).
Definition case_listed (lists : N) (e : entry) : bool := N.testbit lists 8 && negb (e_todo e) && negb (e_filtered e).
Definition todo_listed (lists : N) (e : entry) : bool := N.testbit lists 12 && e_todo e && negb (e_filtered e).
Definition entry_listed (lists : N) (e : entry) : bool := case_listed lists e || todo_listed lists e.

(** The part of a path behind its last slash or backslash, or all of it. *)
Definition separator (c : N) : Prop := c = 47 \/ c = 92.
Definition last_part (path part : bytes) : Prop :=
  Forall (fun c => ~ separator c) part /\ (path = part \/ exists before c, path = before ++ c :: part /\ separator c).
(** Name, file and, if wanted, tags. *)
Definition described (lists : N) (name filine : bytes) (tags : list bytes) (t : bytes) : Prop :=
  exists f, last_part filine f /\ t = name ++ str " " ++ f ++ (if N.testbit lists 16 then concat (map (cons 32) tags) else []).
(** The line of suite [g], [pre] being the suites before. *)
Definition suite_row (lists : N) (pre : list group) (g : group) (line : bytes) : Prop :=
  exists d t, decimal d (count (suite_listed lists) pre + 1) /\ described lists (g_name g) (g_filine g) (g_tags g) t /\
    line = str "SUITE-" ++ d ++ str ". " ++ t.
Definition word (g : group) (e : entry) : bytes :=
  match g_absent g, e_todo e with true, true => str "TODO" | true, false => str "CASE" | false, true => str "Todo" | false, false => str "Case" end.
(** The line of case or todo [e] of [g], [before] being those before it in [g]: its number in the suite, and among all. *)
Definition entry_row (lists : N) (pre : list group) (g : group) (before : list entry) (e : entry) (line : bytes) : Prop :=
  exists d p t, decimal d (count (entry_listed lists) (flat_map g_entries pre ++ before) + 1) /\
    decimal p (count (entry_listed lists) before + 1) /\ described lists (e_name e) (e_filine e) (e_tags e) t /\
    line = str " " ++ word g e ++ (if N.testbit lists 4 then str "/" ++ p else []) ++ str "-" ++ d ++ str ". " ++ t.
(** The lines of the cases of a suite; each that is to be listed has exactly one, in order. *)
Inductive EntryRows (lists : N) (pre : list group) (g : group) : list entry -> list entry -> list bytes -> Prop :=
| ER_nil : forall before, EntryRows lists pre g before [] []
| ER_row : forall before e r line rows, entry_listed lists e = true -> entry_row lists pre g before e line ->
    EntryRows lists pre g (before ++ [e]) r rows -> EntryRows lists pre g before (e :: r) (line :: rows)
| ER_skip : forall before e r rows, entry_listed lists e = false ->
    EntryRows lists pre g (before ++ [e]) r rows -> EntryRows lists pre g before (e :: r) rows.
(** The lines of all suites, each followed by those of its cases. *)
Inductive Rows (lists : N) : list group -> list group -> list bytes -> Prop :=
| R_nil : forall pre, Rows lists pre [] []
| R_row : forall pre g r line entries rows, suite_listed lists g = true -> suite_row lists pre g line ->
    EntryRows lists pre g [] (g_entries g) entries -> Rows lists (pre ++ [g]) r rows -> Rows lists pre (g :: r) (line :: entries ++ rows)
| R_skip : forall pre g r entries rows, suite_listed lists g = false ->
    EntryRows lists pre g [] (g_entries g) entries -> Rows lists (pre ++ [g]) r rows -> Rows lists pre (g :: r) (entries ++ rows).

(** Tags as they are met: [true] on a suite, [false] on a case or todo; [all] or only on those not filtered. *)
Definition marks_of_entry (all : bool) (e : entry) : list (bool * bytes) := if all || negb (e_filtered e) then map (pair false) (e_tags e) else [].
Definition marks_of_suite (all : bool) (g : group) : list (bool * bytes) := if negb (g_absent g) && (all || negb (g_filtered g)) then map (pair true) (g_tags g) else [].
Definition marks (all : bool) (gs : list group) : list (bool * bytes) :=
  flat_map (fun g => marks_of_suite all g ++ flat_map (marks_of_entry all) (g_entries g)) gs.
Definition same_name : forall a b : bytes, {a = b} + {a <> b} := list_eq_dec N.eq_dec.
Definition same_mark : forall a b : bool * bytes, {a = b} + {a <> b}.
Proof. decide equality; [apply same_name|apply bool_dec]. Defined.
(** Without repetitions, in order of first appearance. *)
Fixpoint distinct (l : list bytes) : list bytes :=
  match l with [] => [] | x :: r => x :: filter (fun y => if same_name x y then false else true) (distinct r) end.
Definition tag_names (all : bool) (gs : list group) : list bytes := distinct (map snd (marks all gs)).
Definition plural (n : N) (unit : bytes) : bytes := if n <=? 1 then unit else unit ++ str "s".
(** [n] units, left out if none *)
Definition so_many (n : N) (unit t : bytes) : Prop := (n = 0 /\ t = []) \/ (n <> 0 /\ exists d, decimal d n /\ t = str " " ++ d ++ str " " ++ plural n unit).
Definition tag_row (gs : list group) (i : N) (name line : bytes) : Prop :=
  exists d a b, decimal d i /\
    so_many (N.of_nat (count_occ same_mark (marks false gs) (true, name))) (str "suite") a /\
    so_many (N.of_nat (count_occ same_mark (marks false gs) (false, name))) (str "case") b /\
    line = str "TAG-" ++ d ++ str ". " ++ name ++ str " " ++ a ++ b.
Inductive TagRows (gs : list group) : N -> list bytes -> list bytes -> Prop :=
| T_nil : forall i, TagRows gs i [] []
| T_row : forall i n r line rows, tag_row gs i n line -> TagRows gs (i + 1) r rows -> TagRows gs i (n :: r) (line :: rows).

(** Counts and what they count, separated by commas. *)
Inductive Joined : list (N * bytes) -> bytes -> Prop :=
| J_nil : Joined [] []
| J_one : forall n w d, decimal d n -> Joined [(n, w)] (d ++ str " " ++ w)
| J_more : forall n w d r t, decimal d n -> r <> [] -> Joined r t -> Joined ((n, w) :: r) (d ++ str " " ++ w ++ str ", " ++ t).
Definition part (want : bool) (n : N) (unit : bytes) : list (N * bytes) := if want then [(n, plural n unit)] else [].
Definition filtered_part (want : bool) (n : N) (unit : bytes) : list (N * bytes) := if want && negb (n =? 0) then [(n, str "filtered " ++ plural n unit)] else [].
Definition entries (gs : list group) : list entry := flat_map g_entries gs.
(** The parts of the last line: what was listed, then what was filtered. *)
Definition parts (lists : N) (gs : list group) : list (N * bytes) :=
  part (N.testbit lists 4) (count (suite_listed lists) gs) (str "suite") ++
  part (N.testbit lists 8) (count (case_listed lists) (entries gs)) (str "case") ++
  part (N.testbit lists 12) (count (todo_listed lists) (entries gs)) (str "todo") ++
  part (N.testbit lists 16) (N.of_nat (length (tag_names false gs))) (str "tag") ++
  filtered_part (N.testbit lists 4) (count (fun g => negb (g_absent g) && g_filtered g) gs) (str "suite") ++
  filtered_part (N.testbit lists 8) (count (fun e => negb (e_todo e) && e_filtered e) (entries gs)) (str "case") ++
  filtered_part (N.testbit lists 12) (count (fun e => e_todo e && e_filtered e) (entries gs)) (str "todo") ++
  filtered_part (N.testbit lists 16) (count (fun n => if in_dec same_name n (tag_names false gs) then false else true) (tag_names true gs)) (str "tag").
(** No more different tags than there is room for. *)
Definition few_tags (gs : list group) : Prop := N.of_nat (length (tag_names true gs)) <= 1024.
