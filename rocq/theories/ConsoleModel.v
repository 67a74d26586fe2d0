(** Model of the console report: /repo/source/report/h2_report_console.cpp, with the calls made to it by the runner
    (/repo/source/core/h2_runner.cpp:135-171) and the output of the tests let through by h2_stdio::write
    (/repo/source/stdio/h2_stdio.cpp:7-20).

    The result is the bytes arriving at the terminal, without the colours (what these show is C51).  Counters are unbounded.
    Output of tests comes while their bodies run, not from setups of suites or of the runner.  Given: the text of a bar padded or
    shortened to the width of the terminal (C62), how "%.1f" decides between two equally near numbers, the lines explaining
    failures (h2_fail::print), numbers of assertions, memory footprints and times. *)
From Coq Require Import List NArith ZArith Bool Arith.
From Verif Require Import Base RunnerModel JunitModel ListingModel.
Import ListNotations.
Local Open Scope N_scope.

(** options and surroundings: O.verbose, O.progressing, O.includes[0] || O.excludes[0] (h2_option.hpp:21-45), the number of cases (on_runner_start,
    h2_report_console.cpp:73-77), padding or abbreviate to the width of the terminal (66-69), printf deciding ties (36-46) *)
Record look := mklook { verbose : N; progressing : bool; narrowed : bool; total : N; fit : bytes -> bytes; tie : N -> N -> bool }.
(** a case as the report sees it (h2_case.hpp, h2_test.hpp:1-26): flags, name and place, statistics; what it writes while running; the lines
    explaining its failures, if any (c->fails) *)
Record turn := mkturn { t_name : bytes; t_filine : bytes; t_todo : bool; t_filtered : bool; t_ignored : bool; t_failed : bool; t_warning : bool;
                        t_asserts : N; t_footprint : N; t_ms : N; t_out : bytes; t_details : option (list bytes) }.
(** a suite when it ends (h2_suite.hpp, h2_test.hpp:1-26) *)
Record show := mkshow { h_name : bytes; h_absent : bool; h_turns : list turn; h_stats : stats; h_asserts : N; h_footprint : N; h_ms : N }.
(** members of the report (h2_report_console.cpp:4), h2_stdio::capture_length, h2_report::backable, and all bytes written so far *)
Record con := mkcon { index : N; last : N; cap : N; back : bool; dev : bytes }.
(** h2_report_console.cpp:4, h2_stdio.cpp:5, h2_report.hpp:22 *)
Definition con0 : con := mkcon 0 0 0 false [].
(** h2_console::prints and printl (h2_console.cpp:21-40), visible bytes only *)
Definition emit (b : bytes) (s : con) : con := mkcon (index s) (last s) (cap s) (back s) (dev s ++ b).

(** "%.<k>f" of num / den, [k] at least 1 (h2_report_console.cpp:36-38, 44-46): the nearest number with k decimals *)
Definition nearest (up : N -> N -> bool) (k num den : N) : N :=
  let a := num * 10 ^ k in let q := a / den in let r := a mod den in
  if 2 * r <? den then q else if den <? 2 * r then q + 1 else if up num den then q + 1 else q.
(** [k] digits (h2_report_console.cpp:36-38, 44-46) *)
Fixpoint digits_of (k : nat) (n : N) : bytes := match k with O => [] | S j => digits_of j (n / 10) ++ [48 + n mod 10] end.
(** "%.<k>f" of num / den (h2_report_console.cpp:36-38, 44-46) *)
Definition fixed (up : N -> N -> bool) (k : nat) (num den : N) : bytes :=
  let v := nearest up (N.of_nat k) num den in dec (v / 10 ^ N.of_nat k) ++ str "." ++ digits_of k (v mod 10 ^ N.of_nat k).
(** format_volume (h2_report_console.cpp:33-40) *)
Definition format_volume (l : look) (n : N) : bytes :=
  if n <? 1024 then dec n
  else if n <? 1024 * 1024 then fixed (tie l) 1 n 1024 ++ str "KB"
  else if n <? 1024 * 1024 * 1024 then fixed (tie l) 2 n (1024 * 1024) ++ str "MB"
  else fixed (tie l) 3 n (1024 * 1024 * 1024) ++ str "GB".
(** format_duration (h2_report_console.cpp:41-48) *)
Definition format_duration (l : look) (ms : N) : bytes :=
  if ms <? 100 then dec ms ++ str " milliseconds"
  else if ms <? 1000 * 60 then fixed (tie l) 1 ms 1000 ++ str " second" ++ (if ms =? 1000 then [] else str "s")
  else if ms <? 1000 * 60 * 60 then fixed (tie l) 2 ms 60000 ++ str " minute" ++ (if ms =? 60000 then [] else str "s")
  else fixed (tie l) 3 ms 3600000 ++ str " hour" ++ (if ms =? 3600000 then [] else str "s").
(** format_units without a second unit (h2_report_console.cpp:49-54) *)
Definition format_units (n : N) (unit : bytes) : bytes := dec n ++ unit ++ (if 1 <? n then str "s" else []).

(** the bar before titles (h2_report_console.cpp:13, 17, 22) *)
Definition sep : bytes := [0xe2; 0x94; 0x8a; 32].
(** format_title (h2_report_console.cpp:10-26) *)
Definition format_title (suite case_ : bytes) (file : option bytes) : bytes :=
  sep ++ (match case_ with [] => str "case" | _ => case_ end) ++ str " " ++
  sep ++ (match suite with [] => str "suite" | _ => suite end) ++ str " " ++
  (match file with None => [] | Some f => sep ++ f ++ str " " end).
(** format_percentage (h2_report_console.cpp:27-32) *)
Definition format_percentage (l : look) (s : con) : bytes :=
  let d := dec (if total l =? 0 then 100 else index s * 100 / total l) in
  str "[" ++ repeat 32 (3 - length d) ++ d ++ str "%" ++ str "] ".
(** what goes before a bar (h2_report_console.cpp:57): erases the line, or begins a new one if a test wrote something *)
Definition clear_line : bytes := [27; 91; 50; 75; 13].
(** print_bar (h2_report_console.cpp:55-72) *)
Definition print_bar (l : look) (percentage : bool) (status title : bytes) (backable : bool) (s : con) : con :=
  let s := emit (if last s =? cap s then clear_line else [10]) s in
  let s := mkcon (index s) (cap s) (cap s) (progressing l && backable) (dev s) in
  if negb (progressing l) && backable then s else
  let bar := (if percentage && progressing l then format_percentage l s else []) ++ status ++ title in
  emit (if backable then fit l bar else bar) s.

(** a test writes to the standard output (h2_stdio.cpp:7-20) *)
Definition user_output (l : look) (t : bytes) (s : con) : con :=
  match t with
  | [] => s
  | _ => if verbose l <? 4 then s
         else mkcon (index s) (last s) (cap s + N.of_nat (length t)) false (dev s ++ (if back s then [10] else []) ++ t)
  end.

(** on_case_start (h2_report_console.cpp:121-126) *)
Definition case_start (l : look) (h : show) (t : turn) (s : con) : con :=
  let s := mkcon (index s + 1) (last s) (cap s) (back s) (dev s) in
  if t_filtered t || t_ignored t || t_todo t then s
  else print_bar l true (str "Testing") (format_title (h_name h) (t_name t) None) true s.
(** the lines explaining failures and a blank one (h2_report_console.cpp:137-140, 146-149) *)
Definition print_details (want : bool) (t : turn) (s : con) : con :=
  match t_details t with
  | Some ds => if want then emit [10] (emit (concat (map (fun d => d ++ [10]) ds)) s) else s
  | None => s
  end.
(** statistics of a passed case (h2_report_console.cpp:154-158) *)
Definition case_line (l : look) (t : turn) : bytes :=
  let x := if 0 <? t_asserts t then format_units (t_asserts t) (str " assert") else [] in
  let x := if 0 <? t_footprint t then x ++ comma_if x ++ format_volume l (t_footprint t) ++ str " footprint" else x in
  if 0 <? t_ms t then x ++ comma_if x ++ format_duration l (t_ms t) else x.
(** on_case_endup (h2_report_console.cpp:127-163) *)
Definition case_endup (l : look) (h : show) (t : turn) (s : con) : con :=
  let bar w := print_bar l true w (format_title (h_name h) (t_name t) (Some (basefile (t_filine t)))) false in
  if t_filtered t || t_ignored t then s
  else if t_todo t then (if 5 <=? verbose l then bar (if h_absent h then str "TODO   " else str "Todo   ") s else s)
  else if t_failed t then (if 1 <=? verbose l then print_details (4 <=? verbose l) t (emit [10] (bar (str "Failed ") s)) else s)
  else if t_warning t then (if 2 <=? verbose l then print_details (4 <? verbose l) t (emit [10] (bar (str "Warning") s)) else s)
  else if (5 <=? verbose l) || (verbose l =? 3) then
    let s := bar (str "Passed ") s in
    let s := if 5 <=? verbose l then (match case_line l t with [] => s | x => emit (str "- " ++ x) s end) else s in
    emit [10] s
  else s.
(** one case (h2_runner.cpp:150-159): only one that is executed writes *)
Definition one_turn (l : look) (h : show) (s : con) (t : turn) : con :=
  let s := case_start l h t s in
  let s := if t_todo t || t_filtered t || t_ignored t then s else user_output l (t_out t) s in
  case_endup l h t s.

(** one of the numbers of a line (h2_report_console.cpp:86-90, 106-111) *)
Definition add_stat (n : Z) (what : bytes) (line : bytes) : bytes :=
  if (n =? 0)%Z then line else line ++ comma_if line ++ dec (Z.to_N n) ++ what.
(** nonzero_count (h2_report_console.cpp:6-9) *)
Definition nonzero (l : list Z) : N := N.of_nat (length (filter (fun n => negb (n =? 0)%Z) l)).
(** the line of a suite (h2_report_console.cpp:104-116) *)
Definition suite_line (l : look) (h : show) : bytes :=
  let st := h_stats h in
  let n := nonzero [passed st; warning st; failed st; todo st; filtered st; ignored st] in
  let line := add_stat (passed st) (str " passed") [] in
  let line := add_stat (failed st) (str " failed") line in
  let line := add_stat (warning st) (str " warning") line in
  let line := add_stat (todo st) (str " todo") line in
  let line := add_stat (filtered st) (str " filtered") line in
  let line := add_stat (ignored st) (str " ignored") line in
  str "suite " ++ h_name h ++ (if 1 <? n then str " (" else str " - ") ++ line ++ (if 1 <? n then str ")" else []) ++
  (let c := N.of_nat (length (h_turns h)) in if 0 <? c then units c (str " case") else []) ++
  (if 0 <? h_asserts h then str ", " ++ format_units (h_asserts h) (str " assert") else []) ++
  (if 0 <? h_footprint h then str ", " ++ format_volume l (h_footprint h) ++ str " footprint" else []) ++
  (if 1 <? h_ms h then str ", " ++ format_duration l (h_ms h) else []).
(** on_suite_endup (h2_report_console.cpp:99-120) *)
Definition suite_endup (l : look) (h : show) (s : con) : con :=
  if (9 <=? verbose l) && negb (narrowed l) then emit (suite_line l h ++ [10]) (print_bar l true [] [] false s) else s.
(** one suite (h2_runner.cpp:138-166) *)
Definition one_show (l : look) (s : con) (h : show) : con := suite_endup l h (fold_left (one_turn l h) (h_turns h) s).

(** the last line (h2_report_console.cpp:82-94) *)
Definition summary (l : look) (st : stats) (asserts rounds ms : N) : bytes :=
  let n := nonzero [failed st; warning st; todo st; filtered st; ignored st] in
  (if (0 <? failed st)%Z then str "Failure " else str "Success ") ++
  (if 0 <? n then str "(" else []) ++
  dec (Z.to_N (passed st)) ++ str " passed" ++
  (if (failed st =? 0)%Z then [] else str ", " ++ dec (Z.to_N (failed st)) ++ str " failed") ++
  (if (warning st =? 0)%Z then [] else str ", " ++ dec (Z.to_N (warning st)) ++ str " warning") ++
  (if (todo st =? 0)%Z then [] else str ", " ++ dec (Z.to_N (todo st)) ++ str " todo") ++
  (if (filtered st =? 0)%Z then [] else str ", " ++ dec (Z.to_N (filtered st)) ++ str " filtered") ++
  (if (ignored st =? 0)%Z then [] else str ", " ++ dec (Z.to_N (ignored st)) ++ str " ignored") ++
  (if 0 <? n then str ") " ++ dec (total l) else []) ++
  units (total l) (str " case") ++ str ", " ++ format_units asserts (str " assert") ++
  (if 1 <? rounds then str ", " ++ format_units rounds (str " round") else []) ++
  str ", " ++ format_duration l ms.
(** on_runner_endup (h2_report_console.cpp:78-97) *)
Definition runner_endup (l : look) (st : stats) (asserts rounds ms : N) (s : con) : con :=
  emit (summary l st asserts rounds ms ++ [10]) (print_bar l false [] [] false s).
(** everything written by a run (h2_runner.cpp:135-171) *)
Definition console (l : look) (hs : list show) (st : stats) (asserts rounds ms : N) : bytes :=
  dev (runner_endup l st asserts rounds ms (fold_left (one_show l) hs con0)).

(** what is given about cases and suites: names and places; for a round also statistics, output and explanations; and the flags of cases that
    do not run (h2_case.hpp:3), which the report does not look at *)
Record given := mkgiven { n_name : N -> bytes; n_filine : N -> bytes; n_asserts : nat -> N -> N; n_footprint : nat -> N -> N; n_ms : nat -> N -> N;
                          n_out : nat -> N -> bytes; n_details : nat -> N -> option (list bytes); n_stale : nat -> N -> bool * bool;
                          n_suite : bytes * bool -> stats -> N * N * N }.
(** a case in a round, by what happened to it (h2_runner.cpp:143-161) *)
Definition turn_of (g : given) (body : oracle) (c : case_) (v : visit) : turn :=
  let i := c_id c in let r := v_round v in
  let fl := if v_executed v then body r i else n_stale g r i in
  mkturn (n_name g i) (n_filine g i) (c_todo c) (c_filtered c) (match v_class v with Ignored => true | _ => false end) (fst fl) (snd fl)
         (n_asserts g r i) (n_footprint g r i) (n_ms g r i) (n_out g r i) (n_details g r i).
(** cases and what happened to them, in step (h2_runner.cpp:143-161) *)
Fixpoint turns_of (g : given) (body : oracle) (cs : list case_) (vs : list visit) : list turn * list visit :=
  match cs, vs with
  | c :: cs', v :: vs' => let (ts, rest) := turns_of g body cs' vs' in (turn_of g body c v :: ts, rest)
  | _, _ => ([], vs)
  end.
(** suites, the statistics they ended with, and what happened to their cases (h2_runner.cpp:138-166) *)
Fixpoint shows_of (g : given) (body : oracle) (ss : list ((bytes * bool) * list case_)) (reps : list stats) (vs : list visit) : list show :=
  match ss, reps with
  | (nm, cs) :: ss', st :: reps' =>
    let (ts, rest) := turns_of g body cs vs in
    let '(a, f, m) := n_suite g nm st in
    mkshow (fst nm) (snd nm) ts st a f m :: shows_of g body ss' reps' rest
  | _, _ => []
  end.
(** the console of a run (h2_runner.cpp:135-171) *)
Definition console_run (g : given) (l : look) (o : opts) (body : oracle) (order : nat -> list ((bytes * bool) * list case_)) (asserts ms : N) : bytes :=
  let x := run o body (fun n => map snd (order n)) in
  console l (shows_of g body (flat_map order (seq 0 (run_rounds o))) (rev (snd x)) (rev (r_log (fst x)))) (r_stats (fst x)) asserts (N.of_nat (run_rounds o)) ms.
