(** Model of what mocks report: h2_checkin::check, actual, expect (source/mock/h2_checkin.cpp:1-27), h2_mocker_base::argument, signature,
    check, failing (source/mock/h2_mocker.cpp:1-11, 20-45), the numbering of arguments (source/mock/h2_tuple.hpp:3-17), a call nothing
    expects (source/mock/h2_mocker.hpp:76-82), index_th (source/utils/h2_misc.cpp:87-97).

    A failure of a matcher is a tree of notes; what a note of a matcher says is a parameter (Message and Expect areas).  Counts are
    numbers that fit an int.  A filine of nullptr is the empty text. *)
From Coq Require Import List NArith ZArith Bool Arith.
From Verif Require Import Base LineModel JunitModel MessageModel MockModel ValueModel.
Import ListNotations.
Local Open Scope N_scope.

(** h2_fail with its children (source/report/h2_failure.hpp:1-17, h2_failure.cpp:1-9): seqno (-1 is None), explain, filine, child_next and its sublings *)
Inductive note := Note (seqno : option N) (explain : line) (filine : bytes) (kids : list note).
(** color (source/utils/h2_line.hpp:33) *)
Definition color (l : line) (style : bytes) : line := ([27; 123] ++ style ++ [125]) :: l ++ [[27; 123] ++ str "reset" ++ [125]].
(** delta of a line (source/utils/h2_line.hpp:34) *)
Definition delta_line (l : line) (style : bytes) : line := ([27; 123; 43] ++ style ++ [125]) :: l ++ [[27; 123; 45] ++ style ++ [125]].
(** the table st of index_th (h2_misc.cpp:89) *)
Definition ordinals : list bytes :=
  [str "0th"; str "1st"; str "2nd"; str "3rd"; str "4th"; str "5th"; str "6th"; str "7th"; str "8th"; str "9th"; str "10th"; str "11th"; str "12th"; str "13th"; str "14th"; str "15th"].
(** index_th with shift 1 (h2_misc.cpp:87-97) *)
Definition index_th (sequence : N) : bytes :=
  let n := sequence + 1 in if n <? 16 then nth (N.to_nat n) ordinals [] else dec n ++ str "th".
(** "%d" (h2_checkin.cpp:12, 20-26) *)
Definition number_of (z : Z) : bytes := match z with Zneg p => 45 :: dec (Npos p) | _ => dec (Z.to_N z) end.
(** h2_checkin::actual (h2_checkin.cpp:9-15) *)
Definition actual (c : checkin) : bytes := if (0 <? call c)%Z then number_of (call c) ++ str " times" else str "never".
(** h2_checkin::expect (h2_checkin.cpp:17-28) *)
Definition expected (c : checkin) : bytes :=
  if (least c =? 0)%Z then
    if (most c =? 0)%Z then str "never called"
    else if (most c =? 0x7fffffff)%Z then str "any number of times"
    else str "at most " ++ number_of (most c) ++ str " times"
  else if (least c =? most c)%Z then str "exactly " ++ number_of (least c) ++ str " times"
  else if (most c =? 0x7fffffff)%Z then str "at least " ++ number_of (least c) ++ str " times"
  else str "between " ++ number_of (least c) ++ str " and " ++ number_of (most c) ++ str " times".
(** which of several expectations it is (h2_checkin.cpp:5, h2_mocker.cpp:40) *)
Definition whence (total i : N) (expr : bytes) : line := if 1 <? total then gray (str " when ") ++ [index_th i] ++ [str " "] ++ color [expr] (str "cyan") else [].
(** h2_checkin::check (h2_checkin.cpp:1-7) *)
Definition check_line (srcfn : bytes) (total i : N) (c : checkin) (expr : bytes) : option line :=
  if is_satisfied c || is_saturated c then None
  else Some ([srcfn] ++ gray (str "()") ++ [str " expected "] ++ delta_line [expected c] (str "green") ++ [str " but actually "] ++
             delta_line [actual c] (str "red,bold") ++ [str " called"] ++ whence total i expr).
(** the types one by one (h2_mocker.cpp:4-5) *)
Fixpoint argument_loop (i : N) (seq : option N) (def : bytes) (types : list bytes) : line :=
  match types with
  | [] => []
  | t :: r => gray (if i =? 0 then [] else str ", ") ++ color [t] (match seq with Some k => if k =? i then str "red,bold" else def | None => def end) ++ argument_loop (i + 1) seq def r
  end.
(** h2_mocker_base::argument (h2_mocker.cpp:1-7) *)
Definition argument (types : list bytes) (seq : option N) (def : bytes) : line := gray (str "(") ++ argument_loop 0 seq def types ++ gray (str ")").
(** what a mock knows of its function: return type, name, argument types, place (h2_mocker.hpp:4-6) *)
Record function := mkfunction { f_return : bytes; f_name : bytes; f_types : list bytes; f_filine : bytes }.
(** h2_mocker_base::signature (h2_mocker.cpp:9-12) *)
Definition signature (f : function) : line :=
  [str "MOCK"] ++ gray (str "<") ++ delta_line [f_return f] (str "cyan") ++ [str " "] ++ delta_line [f_name f] (str "green") ++ argument (f_types f) None (str "cyan") ++ gray (str ">").
(** the text expr of an expectation (source/mock/h2_checkin.hpp:17-23) *)
Definition kind (b : bounds) : bytes :=
  match b with
  | Once => str "Once" | Twice => str "Twice" | Times _ => str "Times" | Any => str "Any" | Atleast _ => str "Atleast" | Atmost _ => str "Atmost" | Between _ _ => str "Between"
  end.
(** an expectation that was met so many times (h2_checkin.hpp:2-4, h2_mocker.hpp:75) *)
Definition met (b : bounds) (n : Z) : checkin := let c := fresh b in mkcheckin n (least c) (most c).
(** the loop of h2_mocker_base::check (h2_mocker.cpp:23-29) *)
Fixpoint check_loop (srcfn : bytes) (total i : N) (es : list (bounds * Z)) : list note :=
  match es with
  | [] => []
  | (b, n) :: r => (match check_line srcfn total i (met b n) (kind b) with Some l => [Note (Some i) l [] []] | None => [] end) ++ check_loop srcfn total (i + 1) r
  end.
(** h2_mocker_base::check (h2_mocker.cpp:20-34) *)
Definition check (f : function) (es : list (bounds * Z)) : option note :=
  match check_loop (f_name f) (N.of_nat (length es)) 0 es with [] => None | fails => Some (Note None (signature f) (f_filine f) fails) end.
(** fail->seqno = I - 1 (h2_tuple.hpp:8): of the first of several failures *)
Definition set_seqno (i : N) (fs : list note) : list note := match fs with [] => [] | Note _ e p k :: r => Note (Some i) e p k :: r end.
(** tuple_matches (h2_tuple.hpp:3-17), given what each argument's matcher returned *)
Fixpoint tuple_fails (i : N) (fs : list (list note)) : list note := match fs with [] => [] | f :: r => set_seqno i f ++ tuple_fails (i + 1) r end.
(** what is added to each note (h2_mocker.cpp:39-40) *)
Fixpoint explained (f : function) (total i : N) (expr : bytes) (n : note) : note :=
  match n with
  | Note s e p k => Note s (e ++ gray (str "on ") ++ [f_name f] ++ argument (f_types f) s [] ++ whence total i expr) p (map (explained f total i expr) k)
  end.
(** h2_mocker_base::failing (h2_mocker.cpp:36-45); expectation number [i] of [total] *)
Definition failing (f : function) (total i : N) (expr : bytes) (fs : list (list note)) : note :=
  Note None (signature f) (f_filine f) (map (explained f total i expr) (tuple_fails 0 fs)).
(** a call that meets no expectation (h2_mocker.hpp:76-81) *)
Definition unexpected (f : function) (args : list ValueModel.value) : note :=
  Note None (signature f) (f_filine f) [Note None ([f_name f] ++ print true (VTuple args) ++ color [str " unexpectedly"] (str "red,bold") ++ [str " called"]) [] []].
(** the lines of notes that are printed by h2_fail_normal (source/report/h2_failure.cpp:23-39) *)
Fixpoint printed (ci : nat) (n : note) : list line :=
  match n with Note s e p k => normal_message ci s e p :: (fix all l := match l with [] => [] | x :: r => printed (S ci) x ++ all r end) k end.
