(** C70: the console report. *)
From Coq Require Import List NArith ZArith Bool Arith Lia.
From Verif Require Import Base RunnerModel RunnerSpec JunitModel JunitSpec ConsoleModel ConsoleSpec ConsoleProofs ConsoleProofs2 ConsoleProofs3.
Import ListNotations.
Local Open Scope N_scope.

(** C70: on the screen remain, after the last case, exactly: for each case in order what it wrote and the line of its verdict, for each suite its
    line, all as verbosity asks for, and at the end one line summing up; provided that names and texts have no control characters (output of tests
    may have line feeds) *)
Theorem C70_screen : forall l hs st asserts rounds ms, Forall still_show hs -> still_fit l ->
  exists ls sum, screen (console l hs st asserts rounds ms) = ls ++ [sum] /\ ShowLines l 0 hs ls /\ summed_up l st asserts rounds ms sum.
Proof. exact console_ok. Qed.
Print Assumptions C70_screen.
(** for a run: the lines tell of every case of every round, in order, what became of it, and the numbers of a suite and of the last line count them *)
Theorem C70_run : forall g l o body order asserts ms, lists o = false -> still_given g -> Forall (fun x => still (fst (fst (snd x)))) (outings o order) -> still_fit l ->
  exists hs ls sum, screen (console_run g l o body order asserts ms) = ls ++ [sum] /\
    Forall2 (show_told g o body) (outings o order) hs /\
    ShowLines l 0 hs ls /\
    exists st, tallies st (flat_map h_turns hs) /\ st = r_stats (fst (run o body (fun n => map snd (order n)))) /\ summed_up l st asserts (N.of_nat (run_rounds o)) ms sum.
Proof. exact run_ok. Qed.
Print Assumptions C70_run.
(** the last line says Success if no case failed and Failure if one did *)
Theorem C70_last : forall g l o body order asserts ms, lists o = false -> still_given g -> Forall (fun x => still (fst (fst (snd x)))) (outings o order) -> still_fit l ->
  exists ls x, screen (console_run g l o body order asserts ms) = ls ++ [x] /\
    (count Failed (rev (r_log (fst (run o body (fun n => map snd (order n)))))) = 0%Z -> exists y, x = str "Success " ++ y) /\
    (count Failed (rev (r_log (fst (run o body (fun n => map snd (order n)))))) <> 0%Z -> exists y, x = str "Failure " ++ y).
Proof. exact last_line. Qed.
Print Assumptions C70_last.
(** up to verbosity 3 there is nothing but the last line and one line per failed case (from 1), per case with a warning (from 2) and per passed case (3) *)
Theorem C70_quiet : forall g l o body order asserts ms, lists o = false -> still_given g -> Forall (fun x => still (fst (fst (snd x)))) (outings o order) -> still_fit l -> verbose l <= 3 ->
  let st := r_stats (fst (run o body (fun n => map snd (order n)))) in
  Z.of_nat (length (screen (console_run g l o body order asserts ms))) =
  (1 + (if (1 <=? verbose l)%N then failed st else 0) + (if (2 <=? verbose l)%N then warning st else 0) + (if (3 <=? verbose l)%N then passed st else 0))%Z.
Proof. exact quiet. Qed.
Print Assumptions C70_quiet.

Definition C70_given : given :=
  mkgiven (fun i => str "case " ++ [48 + i]) (fun i => str "dir/a.cpp:" ++ [48 + i]) (fun _ i => i) (fun _ i => i * 1500) (fun _ i => i * 30) (fun _ i => if i =? 4 then str "hello" ++ [10] ++ str "you" else [])
          (fun _ i => if i =? 4 then Some [str "expected 1"] else None) (fun _ _ => (false, false)) (fun _ _ => (7, 0, 1)).
Definition C70_order : nat -> list ((bytes * bool) * list case_) :=
  fun _ => [((str "first", false), [mkcase 1 false false false; mkcase 2 true false false]); ((str "second", false), [mkcase 3 false true false; mkcase 4 false false false])].
Definition C70_body : oracle := fun _ i => (i =? 4, false).
Definition C70_look (v : N) : look := mklook v true false 4 (fun b => b) (fun _ _ => false).
Definition C70_opts : opts := mkopts 1 0 false false false.
Example C70_example : still_given C70_given /\ Forall (fun x => still (fst (fst (snd x)))) (outings C70_opts C70_order) /\ still_fit (C70_look 9) /\
  screen (console_run C70_given (C70_look 9) C70_opts C70_body C70_order 10 1003) =
  [str "[ 25%] Passed ┊ case 1 ┊ first ┊ a.cpp:1 - 1 assert, 1.5KB footprint, 30 milliseconds";
   str "[ 50%] suite first (1 passed, 1 todo) cases, 7 asserts";
   str "[100%] Testing┊ case 4 ┊ second ";
   str "hello";
   str "you";
   str "[100%] Failed ┊ case 4 ┊ second ┊ a.cpp:4 ";
   str "expected 1";
   [];
   str "[100%] suite second (1 failed, 1 filtered) cases, 7 asserts";
   str "Failure (1 passed, 1 failed, 1 todo, 1 filtered) 4 cases, 10 asserts, 1.0 seconds"].
Proof.
  split; [|split; [|split]].
  - intros i. assert (D : still [48 + i]) by (constructor; [lia|constructor]). split; [apply still_app; [stills|exact D]|]. split; [apply still_app; [stills|exact D]|]. intros r. cbn [n_out n_details C70_given].
    destruct (i =? 4); split; [| |constructor|exact I]; vm_compute; repeat constructor; discriminate.
  - vm_compute. repeat constructor; discriminate.
  - intros b H. exact H.
  - vm_compute. reflexivity.
Qed.
(** a case left to do never has a line that stays: the line is written without a line feed and wiped out by what comes next *)
Theorem C70_todo_refuted : exists o order, o = C70_opts /\ todo (r_stats (fst (run o C70_body (fun n => map snd (order n))))) = 1%Z /\
  screen (console_run C70_given (mklook 5 true false 1 (fun b => b) (fun _ _ => false)) o C70_body order 0 5) = [str "Success (0 passed, 1 todo) 1 case, 0 assert, 5 milliseconds"].
Proof. eexists. exists (fun _ => [((str "first", false), [mkcase 2 true false false])]). split; [reflexivity|]. split; vm_compute; reflexivity. Qed.
Print Assumptions C70_todo_refuted.
(** more verbosity does not always show more: passed cases have a line at 3 and none at 4 *)
Theorem C70_verbosity_refuted : exists order, let shown v := screen (console_run C70_given (mklook v true false 1 (fun b => b) (fun _ _ => false)) C70_opts C70_body order 0 5) in
  shown 3 = [str "[100%] Passed ┊ case 1 ┊ first ┊ a.cpp:1 "; str "Success 1 passed case, 0 assert, 5 milliseconds"] /\ shown 4 = [str "Success 1 passed case, 0 assert, 5 milliseconds"].
Proof. exists (fun _ => [((str "first", false), [mkcase 1 false false false])]). split; vm_compute; reflexivity. Qed.
Print Assumptions C70_verbosity_refuted.
(** of two rounds the percentage reaches 200, and more cases passed than there are *)
Theorem C70_rounds_refuted : exists order, screen (console_run C70_given (mklook 3 true false 1 (fun b => b) (fun _ _ => false)) (mkopts 2 0 false false false) C70_body order 0 5) =
  [str "[100%] Passed ┊ case 1 ┊ first ┊ a.cpp:1 "; str "[200%] Passed ┊ case 1 ┊ first ┊ a.cpp:1 "; str "Success 2 passed case, 0 assert, 2 rounds, 5 milliseconds"].
Proof. exists (fun _ => [((str "first", false), [mkcase 1 false false false])]). vm_compute. reflexivity. Qed.
Print Assumptions C70_rounds_refuted.
(** units are not always what they should be: one millisecond has a plural, and rounding gives 60 seconds and 1024 KB *)
Theorem C70_units_refuted : exists l, format_duration l 1 = str "1 milliseconds" /\ format_duration l 59999 = str "60.0 seconds" /\ format_volume l 1048575 = str "1024.0KB".
Proof. exists (C70_look 9). repeat split; vm_compute; reflexivity. Qed.
Print Assumptions C70_units_refuted.
