(** Model of the calendar functions a program gets while memory is checked: the substitutes (source/memory/h2_exempt.cpp:1-22) and
    their installation (source/memory/h2_exempt.cpp:24-32, 45-49, source/memory/h2_memory.cpp:18-23).  Buffers for struct tm are numbers, a
    text buffer is bytes in memory.  The functions that setup exempts (33-44, 50-69) are TraceModel's subject. *)
From Coq Require Import List NArith ZArith Bool.
From Verif Require Import Base StubModel.
Import ListNotations.
Local Open Scope Z_scope.

(** struct tm as filled in h2_exempt.cpp:11-21, with the two fields of glibc *)
Record tm := mktm { tm_sec : Z; tm_min : Z; tm_hour : Z; tm_mday : Z; tm_mon : Z; tm_year : Z; tm_wday : Z; tm_yday : Z; tm_isdst : Z; tm_gmtoff : Z; tm_zone : N }.

(** mktime (h2_exempt.cpp:2) *)
Definition mktime (timeptr : tm) : Z := 1325347200.
(** the text of asctime, asctime_r, ctime and ctime_r (h2_exempt.cpp:3-6) *)
Definition clock_text : bytes := str "SUN JAN 1 00:00:00 2012" ++ [10%N].
(** asctime (h2_exempt.cpp:3) *)
Definition asctime (timeptr : tm) : bytes := clock_text.
(** ctime (h2_exempt.cpp:5) *)
Definition ctime (clock : Z) : bytes := clock_text.
(** strcpy into buf as called in h2_exempt.cpp:4, 6: the text and a zero byte *)
Definition strcpy (m : mem) (buf : N) (s : bytes) : mem * N := (put m buf (s ++ [0%N]), buf).
(** asctime_r (h2_exempt.cpp:4) *)
Definition asctime_r (timeptr : tm) (buf : N) (m : mem) : mem * N := strcpy m buf clock_text.
(** ctime_r (h2_exempt.cpp:6) *)
Definition ctime_r (clock : Z) (buf : N) (m : mem) : mem * N := strcpy m buf clock_text.

(** the buffers of a program (h2_exempt.cpp:11-21); one of them is the static st (h2_exempt.cpp:13) *)
Definition buffers := N -> tm.
(** memset and the two assignments (h2_exempt.cpp:15-18) *)
Definition filled : tm := mktm 0 0 0 1 0 (2012 - 1900) 0 0 0 0 0%N.
(** gmtime_r (h2_exempt.cpp:11-21) *)
Definition gmtime_r (st : N) (clock : Z) (result : option N) (b : buffers) : buffers * N :=
  let r := match result with None => st | Some r => r end in ((fun x => if N.eqb x r then filled else b x), r).
(** gmtime (h2_exempt.cpp:9) *)
Definition gmtime (st : N) (clock : Z) (b : buffers) : buffers * N := gmtime_r st clock None b.
(** localtime (h2_exempt.cpp:7) *)
Definition localtime (st : N) (clock : Z) (b : buffers) : buffers * N := gmtime st clock b.
(** localtime_r (h2_exempt.cpp:8) *)
Definition localtime_r (st : N) (timep : Z) (result : option N) (b : buffers) : buffers * N := gmtime_r st timep result b.

(** the functions replaced (h2_exempt.cpp:28-32, 46-49) *)
Inductive fn := Fgmtime | Fctime | Fasctime | Flocaltime | Fmktime | Fgmtime_r | Fctime_r | Fasctime_r | Flocaltime_r.
(** the calls of h2_stubs::add in setup, in order, with what each puts in the place of what (h2_exempt.cpp:28-32, 46-49) *)
Definition installs : list (fn * fn) := [(Fgmtime, Fgmtime); (Fctime, Fctime); (Fasctime, Fasctime); (Flocaltime, Flocaltime); (Fmktime, Fmktime);
  (Fgmtime_r, Fgmtime_r); (Fctime_r, Fctime_r); (Fasctime_r, Fasctime_r); (Flocaltime_r, Flocaltime_r)].
(** h2_exempt::setup, its stubs (h2_exempt.cpp:24-49); [scope] is the static list (26), [libc] and [ours] where the functions are *)
Definition setup (scope : N) (libc ours : fn -> N) (s : state) : state :=
  fold_left (fun s p => stub_add s scope (libc (fst p)) (ours (snd p))) installs s.
(** h2_memory::initialize, its first line (h2_memory.cpp:20) *)
Definition initialize (memory_check : bool) (scope : N) (libc ours : fn -> N) (s : state) : state :=
  if memory_check then setup scope libc ours s else s.
