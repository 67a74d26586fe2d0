(** C77: the reports of memory failures, exceptions and functions not found show what happened, where and to what. *)
From Coq Require Import List NArith ZArith Bool Arith Lia.
From Verif Require Import Base LineSpec JunitSpec DumpSpec MessageSpec MessageProofs MessageProofs2 MemrepModel MemrepSpec MemrepProofs MemrepProofs2.
Import ListNotations.
Local Open Scope N_scope.

Definition C77_trace := mktrace 3 [str "h2::h2_piece"; str "main + 12"; str "a.cpp: h2::f"].
Definition C77_shown (pad : nat) : list (styles * byte) :=
  letters [] (repeat 32 pad) ++ letters darkgray (str "0. h2::h2_piece") ++ letters [] (nl ++ repeat 32 pad) ++ letters darkgray (str "1. ") ++ letters [] (str "main + 12" ++ nl ++ repeat 32 pad) ++
  letters darkgray (str "2. a.cpp: h2::f") ++ letters [] nl.

(** memory that was not released *)
Theorem C77_leak : forall verbose ptr size sizes place filine allocate, an_address ptr -> ~ In 27 place -> ~ In 27 filine -> calm_frames (stacks allocate) -> Forall (fun p => 1 <= snd p) sizes ->
  closed (print_leak verbose ptr size sizes place filine allocate) /\ shows_leak (verbose <=? 3) ptr size sizes place filine (stacks allocate) (ink [] (print_leak verbose ptr size sizes place filine allocate)).
Proof. exact leak_shown. Qed.
Print Assumptions C77_leak.
Example C77_leak_example :
  an_address 0x1a2b /\ calm_frames (stacks C77_trace) /\ Forall (fun p => 1 <= snd p) [(10, 2); (7, 1); (8, 1); (9, 5)] /\
  ink [] (print_leak 3 0x1a2b 82 [(10, 2); (7, 1); (8, 1); (9, 5)] (str "case") (str "x/a.cpp:9") C77_trace) =
    letters [] (str " 0x1a2b") ++ letters red (str " memory leak ") ++ letters [str "red"] (str "82") ++ letters [] (str " ") ++
    letters darkgray (str "[") ++ letters [] (str "10") ++ letters darkgray (str "x") ++ letters [] (str "2") ++ letters darkgray (str ", ") ++ letters [] (str "7") ++ letters darkgray (str ", ") ++ letters [] (str "8") ++ letters darkgray (str ", ...1] ") ++
    letters [] (str "bytes in case totally") ++ letters darkgray (str " at ") ++ letters [] (str "a.cpp:9" ++ nl ++ str "  which allocate at backtrace:" ++ nl) ++ C77_shown 3 /\
  spoken (print_leak 4 0x1a2b 82 [(10, 2); (7, 1); (8, 1); (9, 5)] (str "case") [] (mktrace 0 [])) = str " 0x1a2b memory leak 82 [10x2, 7, 8, 9x5] bytes in case totally" ++ nl ++ str "  which allocate at backtrace:" ++ nl /\
  spoken (print_leak 4 0x1a2b 82 [(82, 1)] (str "block") [] (mktrace 0 [])) = str " 0x1a2b memory leak 82 bytes in block totally" ++ nl ++ str "  which allocate at backtrace:" ++ nl.
Proof. split; [split; reflexivity|]. split; [repeat (apply Forall_cons; [cbn; intuition discriminate|]); constructor|]. split; [repeat (apply Forall_cons; [cbn; lia|]); constructor|]. vm_compute. repeat split. Qed.

(** memory released twice *)
Theorem C77_double_free : forall ptr allocate release again, an_address ptr -> calm_frames (stacks allocate) -> calm_frames (stacks release) -> calm_frames (stacks again) ->
  closed (print_double_free ptr allocate release again) /\ shows_double_free ptr (stacks allocate) (stacks release) (stacks again) (ink [] (print_double_free ptr allocate release again)).
Proof. exact double_free_shown. Qed.
Print Assumptions C77_double_free.
Example C77_double_free_example :
  an_address 0xff /\ spoken (print_double_free 0xff (mktrace 1 [str "a"]) (mktrace 1 [str "b"]) (mktrace 2 [str "c"; str "d"])) =
  str " 0xff double free at backtrace:" ++ nl ++ str "  0. c" ++ nl ++ str "  1. d" ++ nl ++ str "  which allocate at backtrace:" ++ nl ++ str "   0. a" ++ nl ++ str "  already free at backtrace:" ++ nl ++ str "   0. b" ++ nl.
Proof. split; [split; reflexivity|]. vm_compute. reflexivity. Qed.

(** memory released otherwise than it was allocated *)
Theorem C77_asymmetric : forall ptr who_allocate who_release allocate release, an_address ptr -> ~ In 27 who_allocate -> ~ In 27 who_release -> calm_frames (stacks allocate) -> calm_frames (stacks release) ->
  closed (print_asymmetric ptr who_allocate who_release allocate release) /\ shows_asymmetric ptr who_allocate who_release (count allocate <> 0%nat) (stacks allocate) (stacks release) (ink [] (print_asymmetric ptr who_allocate who_release allocate release)).
Proof. exact asymmetric_shown. Qed.
Print Assumptions C77_asymmetric.
Example C77_asymmetric_example :
  ink [] (print_asymmetric 0xff (str "new[]") (str "free") (mktrace 0 []) C77_trace) =
    letters [] (str " 0xff allocate with ") ++ letters red (str "new[]") ++ letters [] (str ", release by ") ++ letters red (str "free") ++ letters [] (str " asymmetrically at backtrace:" ++ nl) ++ C77_shown 2 /\
  spoken (print_asymmetric 0xff (str "new[]") (str "free") (mktrace 1 [str "a"]) (mktrace 1 [str "b"])) =
    str " 0xff allocate with new[], release by free asymmetrically at backtrace:" ++ nl ++ str "  0. b" ++ nl ++ str "  which allocate at backtrace:" ++ nl ++ str "   0. a" ++ nl.
Proof. vm_compute. split; reflexivity. Qed.

(** memory beside a block written or read: how far from the block, less than 2^31 bytes *)
Theorem C77_overflow : forall ptr size violate z word action spot allocate trample, an_address ptr -> an_address violate -> beside ptr size violate z word -> int_range z ->
  ~ In 27 action -> Forall (fun b => b < 256) spot -> calm_frames (stacks allocate) -> calm_frames (stacks trample) ->
  closed (print_overflow ptr size violate action spot allocate trample) /\ shows_overflow ptr violate z word action spot (count trample <> 0%nat) (stacks allocate) (stacks trample) (ink [] (print_overflow ptr size violate action spot allocate trample)).
Proof. exact overflow_shown. Qed.
Print Assumptions C77_overflow.
Example C77_overflow_example :
  beside 0x1000 8 0x100a 2 (str "overflow") /\ beside 0x1000 8 0xffd (-3) (str "underflow") /\
  ink [] (print_overflow 0x1000 8 0x100a (str "write") [0x0a; 0xff] (mktrace 1 [str "f"]) (mktrace 0 [])) =
    letters [] (str " 0x1000 ") ++ letters red (str "+2") ++ letters [] (str " ") ++ letters darkgray (str "(") ++ letters [] (str "0x100a") ++ letters darkgray (str ")") ++ letters [] (str " ") ++ letters red (str "write") ++
    letters [] (str " overflow ") ++ letters red (str "0A FF ") ++ letters [] (nl ++ str "  which allocate at backtrace:" ++ nl ++ str "   ") ++ letters darkgray (str "0. ") ++ letters [] (str "f" ++ nl) /\
  spoken (print_overflow 0x1000 8 0xffd (str "read") [] (mktrace 1 [str "f"]) (mktrace 1 [str "g"])) =
    str " 0x1000 -3 (0xffd) read underflow  at backtrace:" ++ nl ++ str "   0. g" ++ nl ++ str "  which allocate at backtrace:" ++ nl ++ str "   0. f" ++ nl.
Proof. split; [apply (B_behind 0x1000 8 0x100a); lia|]. split; [apply (B_before 0x1000 8 0xffd); lia|]. vm_compute. split; reflexivity. Qed.

(** memory used after its release *)
Theorem C77_use_after_free : forall ptr violate action allocate release use, an_address ptr -> an_address violate -> int_range (Z.of_N violate - Z.of_N ptr) ->
  ~ In 27 action -> calm_frames (stacks allocate) -> calm_frames (stacks release) -> calm_frames (stacks use) ->
  closed (print_use_after_free ptr violate action allocate release use) /\ shows_use_after_free ptr violate (Z.of_N violate - Z.of_N ptr) action (stacks allocate) (stacks release) (stacks use) (ink [] (print_use_after_free ptr violate action allocate release use)).
Proof. exact use_after_free_shown. Qed.
Print Assumptions C77_use_after_free.
Example C77_use_after_free_example :
  int_range (Z.of_N 0x1005 - Z.of_N 0x1000) /\
  ink [] (print_use_after_free 0x1000 0x1005 (str "read") (mktrace 1 [str "a"]) (mktrace 1 [str "b"]) (mktrace 0 [])) =
    letters [] (str " 0x1000 ") ++ letters red (str "+5") ++ letters [] (str " ") ++ letters darkgray (str "(") ++ letters [] (str "0x1005") ++ letters darkgray (str ")") ++ letters [] (str " ") ++ letters red (str "read after free") ++
    letters [] (str " at backtrace:" ++ nl ++ str "  which allocate at backtrace:" ++ nl ++ str "   ") ++ letters darkgray (str "0. ") ++ letters [] (str "a" ++ nl ++ str "  and free at backtrace:" ++ nl ++ str "   ") ++
    letters darkgray (str "0. ") ++ letters [] (str "b" ++ nl).
Proof. split; [split; reflexivity || discriminate|]. vm_compute. reflexivity. Qed.

(** an exception *)
Theorem C77_exception : forall type explain filine thrown, ~ In 27 type -> closed explain -> ~ In 27 filine -> calm_frames (stacks thrown) ->
  closed (print_exception type explain filine thrown) /\ shows_exception type explain filine (stacks thrown) (ink [] (print_exception type explain filine thrown)).
Proof. exact exception_shown. Qed.
Print Assumptions C77_exception.
Example C77_exception_example :
  ink [] (print_exception (str "std::range_error") [str "too far"] (str "x/a.cpp:9") C77_trace) =
  letters [] (str " exception ") ++ letters [str "red"] (str "std::range_error") ++ letters [] (str " too far") ++ letters darkgray (str " at ") ++ letters [] (str "a.cpp:9 at backtrace:" ++ nl) ++ C77_shown 3.
Proof. vm_compute. reflexivity. Qed.

(** a function that is not the only one of its name *)
Theorem C77_symbol : forall symbol candidates explain, ~ In 27 symbol -> calm_frames candidates -> closed explain -> proper explain ->
  exists l, print_symbol symbol candidates explain = Some l /\ closed l /\ shows_symbol symbol candidates explain (ink [] l).
Proof. exact symbol_shown. Qed.
Print Assumptions C77_symbol.
Example C77_symbol_example :
  proper [str "try again"] /\
  option_map (ink []) (print_symbol (str "foo") [str "foo(int)"; str "a::foo()"] [str "try again"]) =
    Some (letters yellow (str " Find multiple ") ++ letters red (str "foo") ++ letters [] (nl ++ str "  ") ++ letters darkgray (str "0. ") ++ letters yellow (str "foo(int)") ++ letters [] (nl ++ str "  ") ++
          letters darkgray (str "1. ") ++ letters yellow (str "a::foo()") ++ letters [] (nl ++ str "try again" ++ nl)) /\
  option_map spoken (print_symbol (str "foo") [] []) = Some (str " Not found foo" ++ nl).
Proof. split; [apply ascii_proper; reflexivity|]. vm_compute. split; reflexivity. Qed.

(** false: that the distance from the block is right however large it is *)
Theorem C77_far_refuted : exists ptr size violate z, an_address ptr /\ an_address violate /\ beside ptr size violate z (str "overflow") /\
  ~ shows_overflow ptr violate z (str "overflow") (str "read") [] False [] [] (ink [] (print_overflow ptr size violate (str "read") [] (mktrace 0 []) (mktrace 0 []))).
Proof. exact far_refuted. Qed.
Print Assumptions C77_far_refuted.
