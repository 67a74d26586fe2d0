(** Model of what is printed of memory failures, exceptions and functions not found (source/report/h2_failure.cpp:294-406), with the
    printing of a backtrace (source/symbol/h2_backtrace.cpp:150-158) and h2_lines::sequence (source/utils/h2_line.cpp:186-192).

    What is printed is the list of the texts handed to h2_color::print (source/stdio/h2_console.cpp:21-45).  A backtrace is the
    number of its frames and the texts of those printed.  A number is passed for %+d as it is read on x86-64: its lower 32 bits.
    Pointers and sizes have 64 bits; the number of unreleased pieces of memory is below 2^64. *)
From Coq Require Import List NArith ZArith Bool Arith.
From Verif Require Import Base StrModel TextModel LineModel JunitModel DumpModel MessageModel.
Import ListNotations.
Local Open Scope N_scope.

(** h2_stringify of a pointer (source/utils/h2_stringify.hpp:42-51): operator<< *)
Definition pointer_text (p : N) : bytes := if p =? 0 then str "0" else str "0x" ++ lower_digits 16 16 p [].
(** "%p" (h2_failure.cpp:331, 344) *)
Definition percent_p (p : N) : bytes := if p =? 0 then str "(nil)" else str "0x" ++ lower_digits 16 16 p [].
(** conversion to long long (h2_failure.cpp:361, 377) *)
Definition s64 (z : Z) : Z := ((z + 2 ^ 63) mod 2 ^ 64 - 2 ^ 63)%Z.
(** conversion to int (h2_failure.cpp:362) *)
Definition s32 (z : Z) : Z := ((z + 2 ^ 31) mod 2 ^ 32 - 2 ^ 31)%Z.
(** "%+d" (h2_failure.cpp:362, 377) *)
Definition percent_d (z : Z) : bytes := let i := s32 z in (if (i <? 0)%Z then str "-" else str "+") ++ dec (Z.abs_N i).
(** h2_console::prints(style, text) (h2_console.cpp:21-34) *)
Definition prints (style s : bytes) : list bytes := match style with [] => [s] | _ => printf_words style s end.
(** h2_console::printl(line) (h2_console.cpp:36-40) *)
Definition printl (l : line) : list bytes := l ++ [[10]].

(** h2_backtrace: count and what print(stacks) makes of its frames (h2_backtrace.hpp:1-16) *)
Record trace := mktrace { count : nat; stacks : list bytes }.
(** the colour of a frame (h2_backtrace.cpp:155) *)
Definition stack_line (s : bytes) : line :=
  if startswith false s (str "h2::") || contains false s (str ": h2::") then brush dark_gray [s] else [s].
(** h2_lines::sequence (h2_line.cpp:186-192) from the [i]-th line on *)
Fixpoint sequence (pad i : nat) (ls : list line) : list line :=
  match ls with [] => [] | l :: r => indent (delta (dec (N.of_nat i) ++ str ". ") dark_gray ++ l) pad :: sequence pad (S i) r end.
(** h2_backtrace::print(pad) (h2_backtrace.cpp:150-158) *)
Definition print_trace (pad : nat) (t : trace) : list bytes := concat (map printl (sequence pad 0 (map stack_line (stacks t)))).

(** the loop over the sizes (h2_failure.cpp:308-319): sl and c; [n] is the number of all sizes and [i] the position *)
Fixpoint leak_sizes (compact : bool) (n i : nat) (l : list (N * N)) : line * N :=
  match l with
  | [] => ([], 0)
  | (s, k) :: r =>
      let comma := gray (if (i =? 0)%nat then [] else str ", ") in
      if compact && (3 <? S i)%nat then (comma ++ brush dark_gray [str "..."; dec (N.of_nat (n - 3))], 0)
      else let (w, c) := leak_sizes compact n (S i) r in
           (comma ++ [dec s] ++ (if 1 <? k then gray (str "x") ++ [dec k] else []) ++ w, k + c)
  end.
(** h2_fail_memory_leak::print (h2_failure.cpp:305-323); VerboseCompactPassed is 3 *)
Definition print_leak (verbose : N) (ptr size : N) (sizes : list (N * N)) (place filine : bytes) (allocate : trace) : list bytes :=
  let (sl, c) := leak_sizes (verbose <=? 3) (length sizes) 0 sizes in
  printl ([str " "] ++ [pointer_text ptr] ++ brush (str "bold,red") [str " memory leak "] ++ brush (str "red") [dec size] ++ [str " "] ++
          (if 1 <? c then gray (str "[") ++ sl ++ gray (str "] ") else []) ++ [str "bytes in "] ++ [place] ++ [str " totally"] ++ locate filine) ++
  prints [] (str "  which allocate at backtrace:" ++ [10]) ++ print_trace 3 allocate.
(** h2_fail_double_free::print (h2_failure.cpp:329-336) *)
Definition print_double_free (ptr : N) (allocate release again : trace) : list bytes :=
  prints [] (str " " ++ percent_p ptr) ++ prints (str "bold,red") (str " double free") ++ prints [] (str " at backtrace:" ++ [10]) ++ print_trace 2 again ++
  prints [] (str "  which allocate at backtrace:" ++ [10]) ++ print_trace 3 allocate ++ prints [] (str "  already free at backtrace:" ++ [10]) ++ print_trace 3 release.
(** h2_fail_asymmetric_free::print (h2_failure.cpp:342-350) *)
Definition print_asymmetric (ptr : N) (who_allocate who_release : bytes) (allocate release : trace) : list bytes :=
  prints [] (str " " ++ percent_p ptr ++ str " allocate with ") ++ prints (str "bold,red") who_allocate ++ prints [] (str ", release by ") ++ prints (str "bold,red") who_release ++
  prints [] (str " asymmetrically at backtrace:" ++ [10]) ++ print_trace 2 release ++
  (if (0 <? count allocate)%nat then prints [] (str "  which allocate at backtrace:" ++ [10]) ++ print_trace 3 allocate else []).
(** offset (h2_failure.cpp:361) *)
Definition overflow_offset (ptr size violate : N) : Z :=
  s64 (if ptr <? violate then Z.of_N violate - (Z.of_N ptr + Z.of_N size) else Z.of_N violate - Z.of_N ptr).
(** h2_fail_overflow::print (h2_failure.cpp:359-367); filine is null *)
Definition print_overflow (ptr size violate : N) (action : bytes) (spot : list N) (allocate trample : trace) : list bytes :=
  let offset := overflow_offset ptr size violate in
  printl ([str " "] ++ [pointer_text ptr] ++ [str " "] ++ brush (str "bold,red") [percent_d offset] ++ [str " "] ++ gray (str "(") ++ [pointer_text violate] ++ gray (str ")") ++ [str " "] ++
          brush (str "bold,red") [action] ++ [str " "] ++ [if (0 <=? offset)%Z then str "overflow" else str "underflow"] ++ [str " "] ++
          concat (map (fun b => printf_words (str "bold,red") (hex_fixed 2 b ++ str " ")) spot) ++ locate [] ++ [if (0 <? count trample)%nat then str " at backtrace:" else []]) ++
  (if (0 <? count trample)%nat then print_trace 3 trample else []) ++ prints [] (str "  which allocate at backtrace:" ++ [10]) ++ print_trace 3 allocate.
(** h2_fail_use_after_free::print (h2_failure.cpp:375-381) *)
Definition print_use_after_free (ptr violate : N) (action : bytes) (allocate release use : trace) : list bytes :=
  printl ([str " "] ++ [pointer_text ptr] ++ [str " "] ++ brush (str "bold,red") [percent_d (s64 (Z.of_N violate - Z.of_N ptr))] ++ [str " "] ++ gray (str "(") ++ [pointer_text violate] ++ gray (str ")") ++ [str " "] ++
          brush (str "bold,red") [action] ++ brush (str "bold,red") [str " after free"] ++ [str " at backtrace:"]) ++ print_trace 2 use ++
  prints [] (str "  which allocate at backtrace:" ++ [10]) ++ print_trace 3 allocate ++ prints [] (str "  and free at backtrace:" ++ [10]) ++ print_trace 3 release.
(** h2_fail_exception::print (h2_failure.cpp:388-392) *)
Definition print_exception (type : bytes) (explain : line) (filine : bytes) (thrown : trace) : list bytes :=
  printl ([str " exception "] ++ brush (str "red") [type] ++ [str " "] ++ explain ++ locate filine ++ [str " at backtrace:"]) ++ print_trace 3 thrown.
(** the candidates (h2_failure.cpp:402-403) from the [i]-th on *)
Fixpoint print_candidates (i : nat) (cs : list bytes) : list bytes :=
  match cs with
  | [] => []
  | c :: r => printl ([str "  "] ++ brush dark_gray ([dec (N.of_nat i)] ++ [str ". "]) ++ brush (str "yellow") [c]) ++ print_candidates (S i) r
  end.
(** h2_fail_symbol::print (h2_failure.cpp:399-405) *)
Definition print_symbol (symbol : bytes) (candidates : list bytes) (explain : line) : option (list bytes) :=
  match line_width explain with
  | None => None
  | Some w =>
      Some (printl (brush (str "yellow") [match candidates with [] => str " Not found " | _ => str " Find multiple " end] ++ brush (str "bold,red") [symbol]) ++
            print_candidates 0 candidates ++ (if (w =? 0)%nat then [] else printl explain))
  end.
