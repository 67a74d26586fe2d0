(** The Gregorian calendar, the text the C standard prescribes for asctime, and what may be asked of the places of functions. *)
From Coq Require Import List NArith ZArith Bool.
From Verif Require Import Base StubModel StubSpec ClockModel.
Import ListNotations.
Local Open Scope Z_scope.

Definition leap (y : Z) : bool := (y mod 4 =? 0) && (negb (y mod 100 =? 0) || (y mod 400 =? 0)).
(** days from the beginning of 1970 to that of the year n years later *)
Fixpoint days_before (n : nat) : Z := match n with O => 0 | S k => days_before k + (if leap (1970 + Z.of_nat k) then 366 else 365) end.
Definition month_length (y : Z) (mon : nat) : Z := nth mon [31; (if leap y then 29 else 28); 31; 30; 31; 30; 31; 31; 30; 31; 30; 31] 0.
(** days from the beginning of a year to that of a month *)
Fixpoint days_till (y : Z) (mon : nat) : Z := match mon with O => 0 | S k => days_till y k + month_length y k end.

(** [t] (seconds since 1970 in Greenwich) is shown by [d] where clocks are [east] seconds ahead *)
Definition shows (east t : Z) (d : tm) : Prop :=
  exists n mon day, tm_year d = 70 + Z.of_nat n /\ tm_mon d = Z.of_nat mon /\ (mon < 12)%nat /\
    1 <= tm_mday d <= month_length (1970 + Z.of_nat n) mon /\
    tm_yday d = days_till (1970 + Z.of_nat n) mon + tm_mday d - 1 /\
    day = days_before n + tm_yday d /\ tm_wday d = (day + 4) mod 7 /\
    0 <= tm_hour d < 24 /\ 0 <= tm_min d < 60 /\ 0 <= tm_sec d < 60 /\
    t + east = 86400 * day + 3600 * tm_hour d + 60 * tm_min d + tm_sec d.

(** what a struct tm says besides *)
Definition zone_of (d : tm) : Z * Z * N := (tm_isdst d, tm_gmtoff d, tm_zone d).

(** midnight, 1 January 2012, in Greenwich *)
Definition new_year : Z := 1325376000.

(** a call gives the buffer [r], holding that date as of Greenwich without summer time, and leaves other buffers alone *)
Definition gives_new_year (b : buffers) (r : N) (res : buffers * N) : Prop :=
  snd res = r /\ shows 0 new_year (fst res r) /\ zone_of (fst res r) = (0, 0, 0%N) /\ forall x, x <> r -> fst res x = b x.

(** asctime of the C standard (7.27.3.1), for the years 1000 to 9999 *)
Definition digit (n : Z) : N := Z.to_N (48 + n).
Definition two (n : Z) : bytes := [digit (n / 10); digit (n mod 10)].
Definition day_name (d : Z) : bytes := nth (Z.to_nat d) [str "Sun"; str "Mon"; str "Tue"; str "Wed"; str "Thu"; str "Fri"; str "Sat"] (str "???").
Definition month_name (m : Z) : bytes :=
  nth (Z.to_nat m) [str "Jan"; str "Feb"; str "Mar"; str "Apr"; str "May"; str "Jun"; str "Jul"; str "Aug"; str "Sep"; str "Oct"; str "Nov"; str "Dec"] (str "???").
Definition blank_two (n : Z) : bytes := if n <? 10 then str " " ++ [digit n] else two n.
Definition standard_text (d : tm) : bytes :=
  let y := 1900 + tm_year d in
  day_name (tm_wday d) ++ str " " ++ month_name (tm_mon d) ++ str " " ++ blank_two (tm_mday d) ++ str " " ++
  two (tm_hour d) ++ str ":" ++ two (tm_min d) ++ str ":" ++ two (tm_sec d) ++ str " " ++ two (y / 100) ++ two (y mod 100) ++ [10%N].
(** a call gives the buffer [buf], holding the text and a zero byte; it writes to 26 bytes at most *)
Definition gives_text (m : mem) (buf : N) (s : bytes) (res : mem * N) : Prop :=
  snd res = buf /\ bytes_at (fst res) buf (length s + 1) = s ++ [0%N] /\ forall x, ~ (buf <= x < buf + 26)%N -> fst res x = m x.
(** a text without regard to upper case and to repeated blanks *)
Definition upper (c : N) : N := if andb (N.leb 97 c) (N.leb c 122) then N.sub c 32 else c.
Fixpoint once (s : bytes) : bytes :=
  match s with
  | a :: s' => match once s' with b :: r => if andb (N.eqb a 32) (N.eqb b 32) then b :: r else a :: b :: r | [] => [a] end
  | [] => []
  end.
Definition alike (a b : bytes) : Prop := once (map upper a) = once (map upper b).

(** ** the functions in the program *)
Local Open Scope N_scope.
Definition apart_all (libc : fn -> N) : Prop := forall f g, f <> g -> libc f + 12 <= libc g \/ libc g + 12 <= libc f.
(** code that does not begin with a jump *)
Definition no_jump (m : mem) (p : N) : Prop := m p <> 0xE9 /\ m p <> 0xEB /\ ~ (m p = 0xFF /\ m (p + 1) = 0x25) /\ ~ (m p = 0x48 /\ m (p + 1) = 0xFF /\ m (p + 2) = 0x25).
(** the functions can be replaced: they are where nothing is stubbed, apart from one another, and are no mere jumps *)
Record replaceable (m : mem) (st : state) (libc ours : fn -> N) : Prop := {
  r_libc : forall f, libc f < 2 ^ 64;
  r_ours : forall f, ours f < 2 ^ 64;
  r_apart : apart_all libc;
  r_free : forall f fp, stubbed st fp -> fp + 12 <= libc f \/ libc f + 12 <= fp;
  r_code : forall f, no_jump m (libc f) }.
(** some scopes opened later have no stub of the function *)
Definition untouched (fs : list frame) (fp : N) : Prop := forall f e, In f fs -> In e f -> ent_fp e <> fp.
