(** What a backtrace is to tell (C78): independent of how its lines are read. *)
From Coq Require Import List NArith ZArith Bool Arith.
From Verif Require Import Base MemcmpSpec SplitSpec DumpSpec StubModel StubSpec.
Import ListNotations.
Local Open Scope N_scope.

(** hexadecimal digits of a number *)
Definition hex_of (ds : bytes) (v : N) : Prop := (1 <= length ds <= 16)%nat /\ exists zs, Forall2 writes ds zs /\ v = Z.to_N (number 16 zs).
(** the path of a file without a left parenthesis *)
Definition path_ok (file : bytes) : Prop := file <> [] /\ ~ In 40 file.
(** the name of a symbol: begins with a letter or an underscore, without right parenthesis and plus *)
Definition name_ok (n : bytes) : Prop :=
  match n with [] => False | c :: _ => In c (str "_abcdefghijklmnopqrstuvwxyzABCDEFGHIJKLMNOPQRSTUVWXYZ") end /\ ~ In 41 n /\ ~ In 43 n.

(** how a return address is described: [start] is the beginning of the function it is in, or, if there is no symbol, of the file in
    memory; the name as far as it can be kept; the line.  An address that is the very beginning of a function is no return into it. *)
Inductive described (at_ : N) : option N -> bytes -> bytes -> Prop :=
| by_name file n ds start rest : path_ok file -> name_ok n -> (length n <= 1023)%nat -> start < at_ -> hex_of ds (at_ - start) ->
    described at_ (Some start) n (file ++ [40] ++ n ++ str "+0x" ++ ds ++ [41] ++ rest)
| by_long_name file n ds start rest : path_ok file -> name_ok n -> (1023 < length n)%nat -> start < at_ -> hex_of ds (at_ - start) ->
    described at_ (Some start) [] (file ++ [40] ++ n ++ str "+0x" ++ ds ++ [41] ++ rest)
| by_file file ds start rest : path_ok file -> start < at_ -> hex_of ds (at_ - start) ->
    described at_ (Some start) [] (file ++ str "(+0x" ++ ds ++ [41] ++ rest)
| at_start file n rest : path_ok file -> name_ok n -> described at_ None [] (file ++ [40] ++ n ++ str "+0)" ++ rest)
| unknown file rest : path_ok file -> ~ In 43 rest -> described at_ None [] (file ++ str "()" ++ rest)
| bare s : ~ In 40 s -> described at_ None [] s.
(** every frame is described *)
Definition understood (fs : list (N * bytes)) : Prop := Forall (fun f => fst f < 2 ^ 64 /\ exists s n, described (fst f) s n (snd f)) fs.
(** a function in an array ended by a null pointer *)
Definition listed (p : N) (fps : list N) : Prop := p <> 0 /\ exists a b, fps = a ++ p :: b /\ ~ In 0 a.
(** some frame, the first [shift] ones apart, is in a function with a property *)
Definition inside (shift : nat) (fs : list (N * bytes)) (P : N -> Prop) : Prop :=
  exists i at_ line start n, (shift <= i)%nat /\ nth_error fs i = Some (at_, line) /\ described at_ (Some start) n line /\ P start.

(** execution beginning at [p] gets by [n] jumps to [q], which is no jump *)
Inductive chain (m : mem) : nat -> N -> N -> Prop :=
| chain_end p : hop m p p -> chain m 0 p p
| chain_jump n p q r : hop m p q -> chain m n q r -> chain m (S n) p r.
(** [p] is an entry of the function [q] *)
Definition entry_of (m : mem) (p q : N) : Prop := exists n, (n <= 32)%nat /\ chain m n p q.

(** the question about an address of a program loaded [d] bytes above the addresses of its file *)
Definition asked (path : bytes) (d at_ : N) (c : bytes) : Prop :=
  exists a x, a < 2 ^ 64 /\ (a + d) mod 2 ^ 64 = at_ /\ hexed x a /\ c = str "addr2line -C -a -s -p -f -e " ++ path ++ str " -i " ++ x.
(** the first line of a text, without its newline *)
Definition heads (out l : bytes) : Prop := ~ In 10 l /\ (out = l \/ exists r, out = l ++ 10 :: r).
Definition within (p s : bytes) : Prop := exists a b, s = a ++ p ++ b.
(** what the program reading the debug information says, in one line of less than 1024 characters; and that it says nothing *)
Definition says (run : bytes -> option bytes) (cmd t : bytes) : Prop :=
  exists out l, run cmd = Some out /\ heads out l /\ (length l <= 1022)%nat /\ ~ within (str "??:") l /\ trimmed_end l t /\ t <> [].
Definition silent (run : bytes -> option bytes) (cmd : bytes) : Prop :=
  run cmd = None \/ run cmd = Some [] \/ exists out l, run cmd = Some out /\ heads out l /\ (length l <= 1022)%nat /\ within (str "??:") l.
(** the text of a frame: what the debug information says of it, else the readable name, else the name, else the line itself *)
Inductive text_of (run : bytes -> option bytes) (readable : bytes -> option bytes) (cmd : bytes) : bytes -> bytes -> bytes -> Prop :=
| said n line t : says run cmd t -> text_of run readable cmd n line t
| read n line t : silent run cmd -> n <> [] -> readable n = Some t -> (length t <= 1023)%nat -> t <> [] -> text_of run readable cmd n line t
| raw n line : silent run cmd -> n <> [] -> readable n = None -> text_of run readable cmd n line n
| whole line : silent run cmd -> text_of run readable cmd [] line line.
(** the frames from the innermost one on up to main *)
Definition entry_point (n : bytes) : Prop := n = str "main" \/ n = str "__libc_start_main".
Inductive told (run : bytes -> option bytes) (readable : bytes -> option bytes) (cmd : N -> bytes) : list (N * bytes) -> list bytes -> Prop :=
| told_none : told run readable cmd [] []
| told_last at_ line fs s n t : described at_ s n line -> entry_point n -> text_of run readable (cmd at_) n line t ->
    told run readable cmd ((at_, line) :: fs) [t]
| told_more at_ line fs s n t ts : described at_ s n line -> ~ entry_point n -> text_of run readable (cmd at_) n line t ->
    told run readable cmd fs ts -> told run readable cmd ((at_, line) :: fs) (t :: ts).
