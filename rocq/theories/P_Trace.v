(** C78: backtraces. *)
From Coq Require Import List NArith ZArith Bool Arith.
From Verif Require Import Base DumpSpec NmModel NmSpec StubModel StubSpec TraceModel TraceSpec TraceProofs TraceProofs2 TraceProofs3.
Import ListNotations.
Local Open Scope N_scope.

(** reading the line of a frame *)
Theorem C78_line : forall at_ s n line, described at_ s n line -> extract line = (n, option_map (fun st => at_ - st) s).
Proof. exact line_ok. Qed.
Print Assumptions C78_line.
Theorem C78_one : forall at_ s n s' n' line, described at_ s n line -> described at_ s' n' line -> s = s' /\ n = n'.
Proof. exact extract_start. Qed.
Print Assumptions C78_one.
Example C78_line_example :
  described 0x55aa6bb840ef (Some 0x55aa6bb83fbe) (str "_ZN2h24unit7executeEv") (str "./a.out(_ZN2h24unit7executeEv+0x131)[0x55aa6bb840ef]") /\
  extract (str "./a.out(_ZN2h24unit7executeEv+0x131)[0x55aa6bb840ef]") = (str "_ZN2h24unit7executeEv", Some 0x131) /\
  described 0x560c5ed06887 (Some 0x560c5ec55000) [] (str "./a.out(+0xb1887)[0x560c5ed06887]") /\ extract (str "./a.out(+0xb1887)[0x560c5ed06887]") = ([], Some 0xb1887) /\
  described 5 None [] (str "./a.out(f+0) [0x5]") /\ extract (str "./a.out(f+0) [0x5]") = ([], None) /\ extract (str "[0x5]") = ([], None).
Proof. exact line_example. Qed.
Theorem C78_parenthesis_refuted : exists line, line = str "/home/a(+0x5)/t(main+0x10) [0x1010]" /\ snd (extract line) = Some 5.
Proof. exact parenthesis. Qed.
Print Assumptions C78_parenthesis_refuted.

(** is a frame in one of the listed functions? *)
Theorem C78_in : forall shift fs fps, understood fs -> (in_fps shift fs fps = true <-> inside shift fs (fun st => listed st fps)).
Proof. exact in_ok. Qed.
Print Assumptions C78_in.
Theorem C78_exempt : forall m ps qs shift fs, Forall2 (fun p q => entry_of m p q /\ q <> 0) ps qs -> (length ps <= 4095)%nat -> understood fs ->
  (in_fps shift fs (fold_left (add_by_fp m) ps no_fps) = true <-> inside shift fs (fun st => In st qs)).
Proof. exact exempt_ok. Qed.
Print Assumptions C78_exempt.
(** two functions, the first reached by a jump *)
Example C78_exempt_example :
  let m := fun a => if a =? 0x1000 then 0xE9 else if a =? 0x1001 then 0xFB else if a =? 0x1002 then 0x0F else 0 in
  let fs := [(0x9010, str "./a.out(f+0x10) [0x9010]"); (0x2010, str "./a.out(g+0x10) [0x2010]"); (0x9110, str "./a.out(main+0x10) [0x9110]")] in
  Forall2 (fun p q => entry_of m p q /\ q <> 0) [0x1000; 0x3000] [0x2000; 0x3000] /\ understood fs /\
  in_fps 1 fs (fold_left (add_by_fp m) [0x1000; 0x3000] no_fps) = true /\ in_fps 2 fs (fold_left (add_by_fp m) [0x1000; 0x3000] no_fps) = false.
Proof. exact exempt_example. Qed.
(** the 4096th function is not exempted *)
Theorem C78_many_refuted : exists m ps qs shift fs, Forall2 (fun p q => entry_of m p q /\ q <> 0) ps qs /\ understood fs /\ inside shift fs (fun st => In st qs) /\
  in_fps shift fs (fold_left (add_by_fp m) ps no_fps) = false.
Proof. exact many_dropped. Qed.
Print Assumptions C78_many_refuted.

(** the same place *)
Theorem C78_equal : forall a b, (b_count a <= length (b_frames a))%nat -> (b_count b <= length (b_frames b))%nat ->
  (same a b = true <-> firstn (b_count a) (b_frames a) = firstn (b_count b) (b_frames b)).
Proof. exact same_ok. Qed.
Print Assumptions C78_equal.
Example C78_equal_example : same (mkbacktrace 2 [5; 6; 7]) (mkbacktrace 2 [5; 6; 8]) = true /\ same (mkbacktrace 2 [5; 6; 7]) (mkbacktrace 3 [5; 6; 7]) = false /\ same (mkbacktrace 2 [5; 6; 7]) (mkbacktrace 2 [5; 7; 7]) = false.
Proof. repeat split. Qed.

(** the texts *)
Theorem C78_texts : forall run readable path lu l main d cmd shift fs ts, loaded lu l main d -> (length path <= 207)%nat -> (forall at_, at_ < 2 ^ 64 -> asked path d at_ (cmd at_)) -> understood fs ->
  told run readable cmd (skipn shift fs) ts -> stack_texts run readable path lu l main shift fs = Some ts.
Proof. exact stack_ok. Qed.
Print Assumptions C78_texts.
(** of four frames the first is left out, the second has debug information, the third a name to be made readable, and main is the last one shown *)
Example C78_texts_example :
  let l := [mksymbol (str "main") 0x1139] in
  let run := fun c => if bytes_eqb c (str "addr2line -C -a -s -p -f -e ./a.out -i 1180") then Some (str "0x1180: f at a.cpp:7" ++ [10]) else Some (str "0x0: ?? ??:0" ++ [10]) in
  let readable := fun n => if bytes_eqb n (str "_Z1gv") then Some (str "g()") else None in
  let fs := [(0x555555555170, str "./a.out(e+0x1) [0x555555555170]"); (0x555555555180, str "./a.out(_Z1fv+0x4) [0x555555555180]"); (0x555555555190, str "./a.out(_Z1gv+0x4) [0x555555555190]");
             (0x555555555140, str "./a.out(main+0x7) [0x555555555140]"); (0x7ffff7a2d840, str "/lib/libc.so.6(__libc_start_main+0xf0) [0x7ffff7a2d840]")] in
  let ts := [str "0x1180: f at a.cpp:7"; str "g()"; str "main"] in
  loaded false l 0x555555555139 0x555555554000 /\ understood fs /\
  (exists cmd, (forall at_, at_ < 2 ^ 64 -> asked (str "./a.out") 0x555555554000 at_ (cmd at_)) /\ told run readable cmd (skipn 1 fs) ts) /\
  stack_texts run readable (str "./a.out") false l 0x555555555139 1 fs = Some ts.
Proof. exact texts_example. Qed.
(** memory is overrun when the path of the program or a readable name is long *)
Theorem C78_path_refuted : exists run readable path lu l main d fs, loaded lu l main d /\ understood fs /\ stack_texts run readable path lu l main 0 fs = None.
Proof. exact path_overrun. Qed.
Print Assumptions C78_path_refuted.
Theorem C78_readable_refuted : exists run readable lu l main d fs, loaded lu l main d /\ understood fs /\ (forall c, silent run c) /\ stack_texts run readable (str "a.out") lu l main 0 fs = None.
Proof. exact readable_overrun. Qed.
Print Assumptions C78_readable_refuted.
