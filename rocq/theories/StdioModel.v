(** Model of captured output (source/stdio/h2_stdio.cpp).

    Descriptors are integers, stdout is 1 and stderr is 2 (fileno).  The text a format and its arguments make (h2_sprintvf,
    source/utils/h2_misc.hpp) comes with the call, as does the memory behind a pointer.  Not modelled: the stubs that route the
    functions of the C library here (C17 to C19 are about stubs), the matcher applied to the captured text. *)
From Coq Require Import List NArith ZArith Bool Arith.
From Verif Require Import Base StrModel FilterModel SockModel.
Import ListNotations.
Local Open Scope N_scope.

(** h2_stdio (h2_stdio.cpp:3-5), h2_report::backable (source/report/h2_report.hpp), and what arrives at each descriptor, in order *)
Record io := { out_on : bool; err_on : bool; log_on : bool; buffer : bytes; back : bool; capture_length : nat; device : list (Z * bytes) }.

(** the part of [write] that lets the bytes through (h2_stdio.cpp:9-17) *)
Definition pass (fd : Z) (buf : bytes) (s : io) : io :=
  let user := (fd =? 1)%Z || (fd =? 2)%Z in
  let nl := user && back s in
  {| out_on := out_on s; err_on := err_on s; log_on := log_on s; buffer := buffer s; back := if nl then false else back s;
     capture_length := if user then (capture_length s + length buf)%nat else capture_length s;
     device := device s ++ (if nl then [(fd, [10])] else []) ++ [((if (fd =? -21371647)%Z then 1 else fd)%Z, buf)] |}.
(** the part that captures (h2_stdio.cpp:18) *)
Definition take (fd : Z) (buf : bytes) (s : io) : io :=
  if (out_on s && (fd =? 1)%Z) || (err_on s && (fd =? 2)%Z)
  then {| out_on := out_on s; err_on := err_on s; log_on := log_on s; buffer := buffer s ++ buf; back := back s; capture_length := capture_length s; device := device s |}
  else s.
(** write (h2_stdio.cpp:7-20); [normal]: O.verbose >= VerboseNormal *)
Definition write (normal : bool) (fd : Z) (buf : bytes) (s : io) : io :=
  take fd buf (if normal || negb ((fd =? 1)%Z || (fd =? 2)%Z) then pass fd buf s else s).

(** calls, H2COUT's begin (h2_stdio.cpp:151-155) and end (157-160), and the report noting that a title stands on the line (h2_report_console.cpp:60) *)
Inductive op :=
| Write (fd : Z) (buf : bytes) | Fprintf (fd : Z) (text : bytes) | Fputc (c : Z) (fd : Z) | Fputs (s : bytes) (fd : Z) | Fwrite (size nitems : nat) (buf : bytes) (fd : Z)
| Printf (text : bytes) | Putchar (c : Z) | Puts (s : bytes) | Syslog (text : bytes) | Stream (fd : Z) (text : bytes) | Begin (type : bytes) | End_ | Title (b : bool).
(** what a call returns (h2_stdio.cpp:7-99) *)
Inductive res := Int (n : Z) | Void | Text (s : bytes).
(** the bytes of one write each (h2_stdio.cpp:119: overflow of a stream without buffer) *)
Fixpoint each (normal : bool) (fd : Z) (l : bytes) (s : io) : io := match l with [] => s | c :: r => each normal fd r (write normal fd [c] s) end.
(** the low byte (h2_stdio.cpp:40, 71) *)
Definition low (c : Z) : byte := Z.to_N (c mod 256).
(** one call (h2_stdio.cpp:7-99) *)
Definition step (normal : bool) (o : op) (s : io) : io * res :=
  match o with
  | Write fd buf => (write normal fd buf s, Int (Z.of_nat (length buf)))                                  (* h2_stdio.cpp:7-20 *)
  | Fprintf fd text => (write normal fd (c_str text) s, Int (Z.of_nat (length (c_str text))))             (* 22-36 *)
  | Fputc c fd => (write normal fd [low c] s, Int c)                                                       (* 38-43 *)
  | Fputs t fd => (write normal fd (c_str t) s, Int (Z.of_nat (length (c_str t))))                         (* 45-48 *)
  | Fwrite size nitems buf fd => (write normal fd (firstn (size * nitems) buf) s, Int (Z.of_nat (size * nitems)))   (* 50-53 *)
  | Printf text => (write normal 1 (c_str text) s, Int (Z.of_nat (length (c_str text))))                   (* 55-67 *)
  | Putchar c => (write normal 1 [low c] s, Int c)                                                         (* 69-74 *)
  | Puts t => (write normal 1 [10] (write normal 1 (c_str t) s), Int 1)                                    (* 76-81 *)
  | Syslog text => (if log_on s                                                                            (* 83-97 *)
                    then {| out_on := out_on s; err_on := err_on s; log_on := log_on s; buffer := buffer s ++ c_str text; back := back s; capture_length := capture_length s; device := device s |}
                    else s, Void)
  | Stream fd text => (each normal fd text s, Void)                                                        (* 116-126: cout is 1, cerr and clog are 2 *)
  | Begin type =>                                                                                          (* 135-141, 151-155 *)
    let all := match type with [] => true | _ => false end in
    let has k := all || match get_keyvalue type k with Some _ => true | None => false end in
    ({| out_on := has (str "out"); err_on := has (str "err"); log_on := has (str "syslog"); buffer := []; back := back s; capture_length := capture_length s; device := device s |}, Void)
  | End_ =>                                                                                                (* 143-148 *)
    let b := buffer s ++ [0] in
    ({| out_on := false; err_on := false; log_on := false; buffer := b; back := back s; capture_length := capture_length s; device := device s |}, Text (c_str b))
  | Title b => ({| out_on := out_on s; err_on := err_on s; log_on := log_on s; buffer := buffer s; back := b; capture_length := capture_length s; device := device s |}, Void)
  end.
(** calls in sequence: the final state and the results (calls of h2_stdio.cpp:7-99) *)
Fixpoint run (normal : bool) (l : list op) (s : io) : io * list res :=
  match l with [] => (s, []) | o :: r => let '(s1, x) := step normal o s in let '(s2, y) := run normal r s1 in (s2, x :: y) end.
(** the start of the program (h2_stdio.cpp:4-5, 99-102) *)
Definition init : io := {| out_on := false; err_on := false; log_on := false; buffer := []; back := false; capture_length := 0; device := [] |}.
