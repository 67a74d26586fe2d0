(** Model of the listing report: /repo/source/report/h2_report_list.cpp.
    Lines are the visible texts only: the colour words that [printf], [gray] and [color] put around them are left out (what these
    show is C51).  Counters are unbounded numbers ([int] in the code). *)
From Coq Require Import List NArith Bool Arith.
From Verif Require Import Base JunitModel.
Import ListNotations.
Local Open Scope N_scope.

(** What the report looks at in a test: name, place, tags, whether filtered, whether a todo
    (/repo/source/core/h2_test.hpp 9-30, h2_case.hpp 1-9). *)
Record entry := mkentry { e_name : bytes; e_filine : bytes; e_tags : list bytes; e_filtered : bool; e_todo : bool }.
(** ... and in a suite; [absent]: made by a CASE outside of any suite (/repo/source/core/h2_suite.hpp 1-8). *)
Record group := mkgroup { g_name : bytes; g_filine : bytes; g_tags : list bytes; g_filtered : bool; g_absent : bool; g_entries : list entry }.

(** ListSuite 0x10, ListCase 0x100, ListTodo 0x1000, ListTags 0x10000: /repo/source/option/h2_option.hpp 4. *)
Definition list_suite (lists : N) : bool := negb (N.land lists 0x10 =? 0).
(** h2_report_list.cpp 53, 101: O.lists & ListCase *)
Definition list_case (lists : N) : bool := negb (N.land lists 0x100 =? 0).
(** h2_report_list.cpp 54, 95: O.lists & ListTodo *)
Definition list_todo (lists : N) : bool := negb (N.land lists 0x1000 =? 0).
(** h2_report_list.cpp 41, 55, 65: O.lists & ListTags *)
Definition list_tags (lists : N) : bool := negb (N.land lists 0x10000 =? 0).

(** h2_basefile, /repo/source/utils/h2_misc.cpp 8-15: what follows the last slash or backslash. *)
Fixpoint basefile_from (p : bytes) (best : bytes) : bytes :=
  match p with
  | [] => best
  | c :: q => basefile_from q (if (c =? 47) || (c =? 92) then q else best)
  end.
(** h2_misc.cpp 8-15: walks from the end; the model walks from the front and remembers the last one seen. *)
Definition basefile (p : bytes) : bytes := basefile_from p p.

(** A row of the tag tables: name, suites, cases: h2_report_list.cpp 6-9. *)
Record tagrow := mktag { t_name : bytes; t_suites : N; t_cases : N }.
(** get_tag and [t->suites++] or [t->cases++] of the one found: h2_report_list.cpp 12-17, 27-36. *)
Fixpoint bump (suite : bool) (n : bytes) (l : list tagrow) : option (list tagrow) :=
  match l with
  | [] => None
  | t :: r =>
    if bytes_eqb n (t_name t) then Some ((if suite then mktag (t_name t) (t_suites t + 1) (t_cases t) else mktag (t_name t) (t_suites t) (t_cases t + 1)) :: r)
    else option_map (cons t) (bump suite n r)
  end.
(** add_tag, add_suite_tag, add_case_tag: h2_report_list.cpp 18-36; no room for more than 1024. *)
Definition add_tag (suite : bool) (l : list tagrow) (n : bytes) : list tagrow :=
  match bump suite n l with
  | Some k => k
  | None => if 1024 <=? N.of_nat (length l) then l else l ++ [if suite then mktag n 1 0 else mktag n 0 1]
  end.

(** The members of the report: h2_report_list.cpp 2-10. *)
Record state := mkstate { suites : N; cases : N; todos : N; u_suites : N; u_cases : N; u_todos : N; s_cases : N; s_todos : N; tags : list tagrow; u_tags : list tagrow }.
(** h2_report_list.cpp 2-10: all zero and empty *)
Definition initial : state := mkstate 0 0 0 0 0 0 0 0 [] [].

(** H2_UNITS: /repo/source/report/h2_report_console.cpp 1. *)
Definition units (n : N) (unit : bytes) : bytes := if 1 <? n then unit ++ str "s" else unit.
(** comma_if: /repo/source/utils/h2_misc.hpp 14 (", " or nothing) *)
Definition comma_if (line : bytes) : bytes := match line with [] => [] | _ => str ", " end.

(** format_tags: h2_report_list.cpp 62-68. *)
Definition format_tags (lists : N) (tags : list bytes) : bytes := if list_tags lists then flat_map (fun t => str " " ++ t) tags else [].

(** on_suite_start: h2_report_list.cpp 69-84; the lines printed and the new state. *)
Definition on_suite_start (lists : N) (st : state) (g : group) : state * list bytes :=
  let st := mkstate (suites st) (cases st) (todos st) (u_suites st) (u_cases st) (u_todos st) 0 0 (tags st) (u_tags st) in
  if g_absent g then (st, []) else
  let a := fold_left (add_tag true) (g_tags g) (tags st) in
  let b := if g_filtered g then u_tags st else fold_left (add_tag true) (g_tags g) (u_tags st) in
  let st := mkstate (suites st + 1) (cases st) (todos st) (u_suites st) (u_cases st) (u_todos st) (s_cases st) (s_todos st) a b in
  if negb (g_filtered g) && list_suite lists then
    let n := u_suites st + 1 in
    (mkstate (suites st) (cases st) (todos st) n (u_cases st) (u_todos st) (s_cases st) (s_todos st) (tags st) (u_tags st),
     [str "SUITE-" ++ dec n ++ str ". " ++ g_name g ++ str " " ++ basefile (g_filine g) ++ format_tags lists (g_tags g)])
  else (st, []).

(** on_case_start: h2_report_list.cpp 86-114. *)
Definition on_case_start (lists : N) (st : state) (g : group) (e : entry) : state * list bytes :=
  let a := fold_left (add_tag false) (e_tags e) (tags st) in
  let b := if e_filtered e then u_tags st else fold_left (add_tag false) (e_tags e) (u_tags st) in
  let '(st, type) :=
    if e_todo e then
      if negb (e_filtered e) && list_todo lists then
        (mkstate (suites st) (cases st) (todos st + 1) (u_suites st) (u_cases st) (u_todos st + 1) (s_cases st) (s_todos st + 1) a b, Some (if g_absent g then str "TODO" else str "Todo"))
      else (mkstate (suites st) (cases st) (todos st + 1) (u_suites st) (u_cases st) (u_todos st) (s_cases st) (s_todos st) a b, None)
    else
      if negb (e_filtered e) && list_case lists then
        (mkstate (suites st) (cases st + 1) (todos st) (u_suites st) (u_cases st + 1) (u_todos st) (s_cases st + 1) (s_todos st) a b, Some (if g_absent g then str "CASE" else str "Case"))
      else (mkstate (suites st) (cases st + 1) (todos st) (u_suites st) (u_cases st) (u_todos st) (s_cases st) (s_todos st) a b, None) in
  match type with
  | None => (st, [])
  | Some t =>
    let head := if list_suite lists then str " " ++ t ++ str "/" ++ dec (s_cases st + s_todos st) ++ str "-" ++ dec (u_cases st + u_todos st) ++ str ". "
                else str " " ++ t ++ str "-" ++ dec (u_cases st + u_todos st) ++ str ". " in
    (st, [head ++ e_name e ++ str " " ++ basefile (e_filine e) ++ format_tags lists (e_tags e)])
  end.

(** The loop over the cases of a suite: /repo/source/core/h2_runner.cpp 143-161 (nothing runs when listing). *)
Fixpoint run_entries (lists : N) (st : state) (g : group) (es : list entry) : state * list bytes :=
  match es with
  | [] => (st, [])
  | e :: r => let '(st, a) := on_case_start lists st g e in let '(st, b) := run_entries lists st g r in (st, a ++ b)
  end.
(** The loop over the suites: h2_runner.cpp 136-166; several rounds are the suites of one round after those of the other. *)
Fixpoint run_groups (lists : N) (st : state) (gs : list group) : state * list bytes :=
  match gs with
  | [] => (st, [])
  | g :: r =>
    let '(st, a) := on_suite_start lists st g in
    let '(st, b) := run_entries lists st g (g_entries g) in
    let '(st, c) := run_groups lists st r in (st, a ++ b ++ c)
  end.

(** Lines of the tags: h2_report_list.cpp 41-49. *)
Fixpoint tag_lines (i : N) (l : list tagrow) : list bytes :=
  match l with
  | [] => []
  | t :: r =>
    (str "TAG-" ++ dec i ++ str ". " ++ t_name t ++ str " " ++
     (if t_suites t =? 0 then [] else str " " ++ dec (t_suites t) ++ str " " ++ units (t_suites t) (str "suite")) ++
     (if t_cases t =? 0 then [] else str " " ++ dec (t_cases t) ++ str " " ++ units (t_cases t) (str "case"))) :: tag_lines (i + 1) r
  end.
(** A count added to the line: h2_report_list.cpp 52-55. *)
Definition add_count (want : bool) (n : N) (unit : bytes) (line : bytes) : bytes :=
  if want then line ++ comma_if line ++ dec n ++ str " " ++ units n unit else line.
(** ... of filtered ones: h2_report_list.cpp 56-59. *)
Definition add_filtered (want : bool) (all un : N) (unit : bytes) (line : bytes) : bytes :=
  if want && (un <? all) then line ++ comma_if line ++ dec (all - un) ++ str " filtered " ++ units (all - un) unit else line.
(** on_runner_endup: h2_report_list.cpp 39-61. *)
Definition on_runner_endup (lists : N) (st : state) : list bytes :=
  let line := add_count (list_suite lists) (u_suites st) (str "suite") [] in
  let line := add_count (list_case lists) (u_cases st) (str "case") line in
  let line := add_count (list_todo lists) (u_todos st) (str "todo") line in
  let line := add_count (list_tags lists) (N.of_nat (length (u_tags st))) (str "tag") line in
  let line := add_filtered (list_suite lists) (suites st) (u_suites st) (str "suite") line in
  let line := add_filtered (list_case lists) (cases st) (u_cases st) (str "case") line in
  let line := add_filtered (list_todo lists) (todos st) (u_todos st) (str "todo") line in
  let line := add_filtered (list_tags lists) (N.of_nat (length (tags st))) (N.of_nat (length (u_tags st))) (str "tag") line in
  (if list_tags lists then tag_lines 0 (u_tags st) else []) ++ [str "Listing " ++ line].

(** The whole listing: h2_runner.cpp 135-171 with h2_report_list. *)
Definition listing (lists : N) (gs : list group) : list bytes :=
  let '(st, rows) := run_groups lists initial gs in rows ++ on_runner_endup lists st.
