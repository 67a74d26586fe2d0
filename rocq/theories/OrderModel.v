(** Model of the order of execution: source/core/h2_runner.cpp:1-115 (saving, reading and replaying the last order, and
    shuffling) with the sequence numbers given at registration (source/core/h2_suite.cpp:46-51).
    h2_list::sort (source/utils/h2_list.cpp:48-60) is used here on plain sequences; ListModel/P_List (C06) treat the
    pointers. Sequence numbers and line numbers are ints; they are non-negative, so that their differences are exact. *)
From Coq Require Import List ZArith NArith Bool Arith.
From Verif Require Import Base.
Import ListNotations.
Local Open Scope Z_scope.

(** the parts of h2_test that matter (h2_test.hpp:10-24); [o_id] stands for the object's address *)
Record tt := mktt { o_id : N; o_name : bytes; o_file : bytes; o_line : Z; o_seq : Z }.
(** h2_case with the flags involved (h2_case.hpp:1-3) *)
Record tcase := mktc { ct : tt; c_failed : bool; c_last : bool }.
(** h2_suite with its list of cases (h2_suite.hpp:1-4) *)
Record tsuite := mkts { st : tt; u_cases : list tcase }.

(** x->seq = v (h2_runner.cpp:20, 109; h2_suite.cpp:50) *)
Definition set_seq (t : tt) (v : Z) : tt := mktt (o_id t) (o_name t) (o_file t) (o_line t) v.

(** *** sorting (h2_list.cpp:48-60): each element is put before the first one that compares greater *)
Fixpoint insert {A : Type} (cmp : A -> A -> Z) (p : A) (m : list A) : list A :=
  match m with
  | [] => [p]
  | q :: m' => if 0 <? cmp q p then p :: q :: m' else q :: insert cmp p m'
  end.
(** h2_list::sort (h2_list.cpp:48-60) *)
Definition sort {A : Type} (cmp : A -> A -> Z) (l : list A) : list A := fold_left (fun m p => insert cmp p m) l [].

(** strcasecmp of C strings (used at h2_runner.cpp:79, 83) *)
Fixpoint strcasecmp (a b : bytes) : Z :=
  match a, b with
  | [], [] => 0
  | [], y :: _ => 0 - Z.of_N (tolower y)
  | x :: _, [] => Z.of_N (tolower x)
  | x :: a', y :: b' => if N.eqb (tolower x) (tolower y) then strcasecmp a' b' else Z.of_N (tolower x) - Z.of_N (tolower y)
  end.

(** shuffle_comparison::seq (h2_runner.cpp:73-76) *)
Definition cmp_seq (a b : tt) : Z := o_seq a - o_seq b.
(** shuffle_comparison::name (h2_runner.cpp:77-80) *)
Definition cmp_name (a b : tt) : Z := strcasecmp (o_name a) (o_name b).
(** shuffle_comparison::file (h2_runner.cpp:81-85) *)
Definition cmp_file (a b : tt) : Z :=
  let t := strcasecmp (o_file a) (o_file b) in if negb (t =? 0) then t else o_line a - o_line b.
(** O.shuffles (h2_option.hpp: ShuffleRandom, ShuffleName, ShuffleFile, ShuffleReverse) *)
Record shuffles := mksh { sh_random : bool; sh_name : bool; sh_file : bool; sh_reverse : bool }.
(** O.shuffles is non-zero (h2_runner.cpp:104) *)
Definition sh_any (o : shuffles) : bool := sh_random o || sh_name o || sh_file o || sh_reverse o.
(** shuffle_comparison::cmp (h2_runner.cpp:86-92) *)
Definition cmp_opt (o : shuffles) (a b : tt) : Z :=
  let reverse := if sh_reverse o then -1 else 1 in
  if sh_name o then cmp_name a b * reverse
  else if sh_file o then cmp_file a b * reverse
  else cmp_seq a b * reverse.

(** suites.sort(cmp), then every s->cases.sort(cmp) (h2_runner.cpp:98-100, 111-113) *)
Definition sort_all (cmp : tt -> tt -> Z) (suites : list tsuite) : list tsuite :=
  map (fun s => mkts (st s) (sort (fun a b => cmp (ct a) (ct b)) (u_cases s))) (sort (fun a b => cmp (st a) (st b)) suites).

(** s->seq = c->seq = rand() for the cases of a suite (h2_runner.cpp:108-109); [r] is the sequence of numbers that rand()
    will return, [i] how many have been used *)
Fixpoint rand_cases (r : nat -> Z) (i : nat) (s : tt) (cs : list tcase) : tt * list tcase * nat :=
  match cs with
  | [] => (s, [], i)
  | c :: cs' =>
      let '(s', cs'', i') := rand_cases r (S i) (set_seq s (r i)) cs' in
      (s', mktc (set_seq (ct c) (r i)) (c_failed c) (c_last c) :: cs'', i')
  end.
(** the loop over suites (h2_runner.cpp:107-109) *)
Fixpoint rand_suites (r : nat -> Z) (i : nat) (ss : list tsuite) : list tsuite :=
  match ss with
  | [] => []
  | s :: ss' => let '(t, cs, i') := rand_cases r i (st s) (u_cases s) in mkts t cs :: rand_suites r i' ss'
  end.

(** *** the .last_order file *)
(** the literals of the format (h2_runner.cpp:9) *)
Definition p_file := str " file: ".
(** h2_runner.cpp:9 *)
Definition p_suite := str "suite: ".
(** h2_runner.cpp:9 *)
Definition p_case := str " case: ".
(** h2_runner.cpp:9 *)
Definition p_test := str " test: ".
(** c->failed ? "failed" : "passed" (h2_runner.cpp:9) *)
Definition verdict (b : bool) : bytes := if b then str "failed" else str "passed".
(** one fprintf (h2_runner.cpp:9) *)
Definition print_case (s : tsuite) (c : tcase) : bytes :=
  p_file ++ o_file (ct c) ++ 10%N :: p_suite ++ o_name (st s) ++ 10%N :: p_case ++ o_name (ct c) ++ 10%N :: p_test ++ verdict (c_failed c) ++ [10%N; 10%N].
(** save_last_order (h2_runner.cpp:3-11): the contents written *)
Definition save_last_order (suites : list tsuite) : bytes :=
  flat_map (fun s => flat_map (print_case s) (u_cases s)) suites.

(** ::fgets(b, 512, f) (h2_runner.cpp:27): at most 511 bytes, up to and including a newline; the line and what is left *)
Fixpoint take_line (n : nat) (s : bytes) : bytes * bytes :=
  match n, s with
  | O, _ => ([], s)
  | _, [] => ([], [])
  | S n', c :: s' => if N.eqb c 10 then ([c], s') else let (a, b) := take_line n' s' in (c :: a, b)
  end.
(** the C string in the buffer: up to the first NUL (strlen at h2_runner.cpp:28) *)
Fixpoint upto_nul (s : bytes) : bytes := match s with [] => [] | c :: s' => if N.eqb c 0 then [] else c :: upto_nul s' end.
(** outcome of reading: bad = undefined behaviour (h2_runner.cpp:25-30) *)
Inductive line_out := LEof | LBad | LLine (l rest : bytes).
(** the static fgets (h2_runner.cpp:25-30): drops the last character of the line; an empty C string is out of bounds *)
Definition read_line (s : bytes) : line_out :=
  match s with
  | [] => LEof
  | _ => let (l, rest) := take_line 511 s in
         match upto_nul l with [] => LBad | l' => LLine (removelast l') rest end
  end.
(** filename + 7 (h2_runner.cpp:39): reading past the end of a short line is undefined *)
Definition skip7 (l : bytes) : option bytes := if Nat.leb 7 (length l) then Some (skipn 7 l) else None.
(** a record of the file (written at h2_runner.cpp:9, read at 38-41) *)
Record entry := mkentry { e_file : bytes; e_suite : bytes; e_case : bytes; e_failed : bool }.
(** the reading loop (h2_runner.cpp:38-41); None = undefined behaviour (or fuel exhausted) *)
Fixpoint read_entries (fuel : nat) (s : bytes) : option (list entry) :=
  match fuel with
  | O => None
  | S fuel' =>
      match read_line s with LEof => Some [] | LBad => None | LLine l1 s1 =>
      match read_line s1 with LEof => Some [] | LBad => None | LLine l2 s2 =>
      match read_line s2 with LEof => Some [] | LBad => None | LLine l3 s3 =>
      match read_line s3 with LEof => Some [] | LBad => None | LLine l4 s4 =>
      match read_line s4 with LEof => Some [] | LBad => None | LLine l5 s5 =>
      match skip7 l1, skip7 l2, skip7 l3, skip7 l4 with
      | Some f, Some u, Some c, Some t =>
          match read_entries fuel' s5 with
          | Some es => Some (mkentry f u c (bytes_eqb (str "failed") t) :: es)
          | None => None
          end
      | _, _, _, _ => None
      end end end end end end
  end.

(** the loop over the cases of a suite whose name matches (h2_runner.cpp:17-21); [k] is the static counter *)
Fixpoint find_in_cases (e : entry) (k : Z) (s : tt) (cs : list tcase) : tt * list tcase * Z :=
  match cs with
  | [] => (s, [], k)
  | c :: cs' =>
      if bytes_eqb (e_case e) (o_name (ct c)) && bytes_eqb (e_file e) (o_file (ct c)) then
        let '(s', cs'', k') := find_in_cases e (k + 1) (set_seq s (k + 1)) cs' in
        (s', mktc (set_seq (ct c) (k + 1)) (c_failed c) (if e_failed e then true else c_last c) :: cs'', k')
      else let '(s', cs'', k') := find_in_cases e k s cs' in (s', c :: cs'', k')
  end.
(** __find_case (h2_runner.cpp:13-23) *)
Fixpoint find_case (e : entry) (k : Z) (ss : list tsuite) : list tsuite * Z :=
  match ss with
  | [] => ([], k)
  | s :: ss' =>
      if bytes_eqb (e_suite e) (o_name (st s)) then
        let '(t, cs, k') := find_in_cases e k (st s) (u_cases s) in
        let (r, k'') := find_case e k' ss' in (mkts t cs :: r, k'')
      else let (r, k'') := find_case e k ss' in (s :: r, k'')
  end.
(** sequence_last_order (h2_runner.cpp:32-44) on the records read *)
Definition find_all (es : list entry) (k : Z) (ss : list tsuite) : list tsuite * Z :=
  fold_left (fun x e => find_case e (snd x) (fst x)) es (ss, k).

(** h2_runner::shuffle (h2_runner.cpp:95-115): [file] = contents of .last_order if it exists, [k] the static counter of
    __find_case; result: the suites rearranged and the value of [lasts]; None = undefined behaviour *)
Definition shuffle (o : shuffles) (r : nat -> Z) (file : option bytes) (k : Z) (ss : list tsuite) : option (list tsuite * nat) :=
  match (match file with None => Some [] | Some f => read_entries (S (length f)) f end) with
  | None => None
  | Some es =>
      let (ss1, _) := find_all es k ss in
      if negb (Nat.eqb (length es) 0) then Some (sort_all cmp_seq ss1, length es)
      else if sh_any o then
        let ss2 := if sh_random o then rand_suites r 0 ss1 else ss1 in
        Some (sort_all (cmp_opt o) ss2, length es)
      else Some (ss1, length es)
  end.

(** what is done with the file at the end of a round (h2_runner.cpp:167-168) *)
Definition keep_order (failed_so_far : Z) (lasts : nat) (suites : list tsuite) (file : option bytes) : option bytes :=
  if failed_so_far =? 0 then None
  else if Nat.eqb lasts 0 then Some (save_last_order suites)
  else file.

(** the static counter of __find_case after reading the file (h2_runner.cpp:15, 20) *)
Definition counter_after (file : option bytes) (k : Z) (ss : list tsuite) : Z :=
  match file with
  | None => k
  | Some f => match read_entries (S (length f)) f with Some es => snd (find_all es k ss) | None => k end
  end.
(** the rounds of a run as far as the order is concerned (h2_runner.cpp:136-169): [play i ss] gives the suites with the
    flags of their cases after round i and how many cases failed in it, [r i] the numbers rand() returns in round i.
    Result: the file at the end, and for every round its suites and number of failures; None = undefined behaviour *)
Fixpoint rounds (o : shuffles) (r : nat -> nat -> Z) (play : nat -> list tsuite -> list tsuite * Z) (n i : nat) (k failed : Z)
    (file : option bytes) (ss : list tsuite) : option (option bytes * list (list tsuite * Z)) :=
  match n with
  | O => Some (file, [])
  | S n' =>
      match shuffle o (r i) file k ss with
      | None => None
      | Some (ss1, lasts) =>
          let (ss2, f) := play i ss1 in
          match rounds o r play n' (S i) (counter_after file k ss) (failed + f) (keep_order (failed + f) lasts ss2 file) ss2 with
          | None => None
          | Some (final, hist) => Some (final, (ss2, f) :: hist)
          end
      end
  end.

(** registration (h2_suite.cpp:46-51): numbering of the cases of a suite, from the static counter *)
Fixpoint reg_cases (n : Z) (s : tt) (cs : list tcase) : tt * list tcase * Z :=
  match cs with
  | [] => (s, [], n)
  | c :: cs' => let '(s', cs'', n') := reg_cases (n + 1) (set_seq s (n + 1)) cs' in
                (s', mktc (set_seq (ct c) (n + 1)) (c_failed c) (c_last c) :: cs'', n')
  end.
(** all suites, in the order they are enumerated (h2_runner.cpp:50-59) *)
Fixpoint reg_suites (n : Z) (ss : list tsuite) : list tsuite :=
  match ss with
  | [] => []
  | s :: ss' => let '(t, cs, n') := reg_cases n (st s) (u_cases s) in mkts t cs :: reg_suites n' ss'
  end.
(** the initial value of the counter (h2_suite.cpp:48) *)
Definition seq0 : Z := 268435455.
