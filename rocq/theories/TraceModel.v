(** Model of backtraces: what is read from the lines of backtrace_symbols, their comparison, the search for exempted functions and
    the texts of the frames (source/symbol/h2_backtrace.cpp:1-148, the Linux branches), the array of exempted functions
    (source/memory/h2_exempt.cpp:79-82, h2_array_append of source/utils/h2_misc.hpp:25), h2_cxa::demangle and follow_jmp
    (source/symbol/h2_cxa.cpp:1-10, 39-56).

    ::backtrace and backtrace_symbols are given: a backtrace is a list of frames, each the address and the line describing it.
    "%llx" is modelled for a text that begins with a digit (backtrace_symbols puts nothing else behind 0x).  The programs run by
    popen and __cxa_demangle are functions given.  None: undefined behaviour (a buffer is overrun). *)
From Coq Require Import List NArith ZArith Bool Arith.
From Verif Require Import Base FilterModel MemcmpModel TextModel SplitModel DumpModel NmModel StubModel.
Import ListNotations.
Local Open Scope N_scope.

(** [_a-zA-Z] (h2_backtrace.cpp:34) *)
Definition starts_name (c : byte) : bool := (c =? 95) || ((97 <=? c) && (c <=? 122)) || ((65 <=? c) && (c <=? 90)).
(** %*[...] or %[...]: the characters accepted, at least one, and the rest (h2_backtrace.cpp:34, 37) *)
Definition scan_set (f : byte -> bool) (s : bytes) : option (bytes * bytes) :=
  match span f s with ([], _) => None | (a, r) => Some (a, r) end.
(** %1023[...] (h2_backtrace.cpp:34) *)
Definition scan_1023 (f : byte -> bool) (s : bytes) : option (bytes * bytes) :=
  match scan_set f s with None => None | Some (a, _) => Some (firstn 1023 a, skipn (length (firstn 1023 a)) s) end.
(** +0x%llx (h2_backtrace.cpp:34, 37) *)
Definition scan_offset (s : bytes) : option N :=
  match s with
  | 43 :: 48 :: 120 :: d :: r => if isxdigit d then Some (strtoull16 (d :: r)) else None
  | _ => None
  end.
(** sscanf(line, "%*[^(]%*[^_a-zA-Z]%1023[^)+]+0x%llx", ...) == 2 (h2_backtrace.cpp:34) *)
Definition scan_named (line : bytes) : option (bytes * N) :=
  match scan_set (fun c => negb (c =? 40)) line with
  | None => None
  | Some (_, r) =>
      match scan_set (fun c => negb (starts_name c)) r with
      | None => None
      | Some (_, r) =>
          match scan_1023 (fun c => negb (c =? 41) && negb (c =? 43)) r with
          | None => None
          | Some (n, r) => option_map (pair n) (scan_offset r)
          end
      end
  end.
(** sscanf(line, "%*[^(]%*[^+]+0x%llx", ...) == 1 (h2_backtrace.cpp:37) *)
Definition scan_nameless (line : bytes) : option N :=
  match scan_set (fun c => negb (c =? 40)) line with
  | None => None
  | Some (_, r) => match scan_set (fun c => negb (c =? 43)) r with None => None | Some (_, r) => scan_offset r end
  end.
(** backtrace_extract (h2_backtrace.cpp:26-40): mangle_name, and the displacement if it returns true *)
Definition extract (line : bytes) : bytes * option N :=
  match scan_named line with Some (n, d) => (n, Some d) | None => ([], scan_nameless line) end.

(** h2_backtrace (h2_backtrace.hpp:1-16): count, and the array *)
Record backtrace := mkbacktrace { b_count : nat; b_frames : list N }.
(** the loop of operator== (h2_backtrace.cpp:46-48), [k] rounds from [i] on *)
Fixpoint same_from (k i : nat) (a b : list N) : bool :=
  match k with O => true | S k' => (nth i a 0 =? nth i b 0) && same_from k' (S i) a b end.
(** h2_backtrace::operator== (h2_backtrace.cpp:43-50) *)
Definition same (a b : backtrace) : bool := (b_count a =? b_count b)%nat && same_from (b_count a) 0 (b_frames a) (b_frames b).

(** fps[j], up to the null pointer (h2_backtrace.cpp:92) *)
Fixpoint until_null (fps : list N) : list N := match fps with [] => [] | p :: r => if p =? 0 then [] else p :: until_null r end.
(** the inner loop for one frame (h2_backtrace.cpp:89-94) *)
Definition frame_in (fps : list N) (f : N * bytes) : bool :=
  match snd (extract (snd f)) with
  | Some d => existsb (N.eqb (w64 (Z.of_N (fst f) - Z.of_N d))) (until_null fps)
  | None => false
  end.
(** h2_backtrace::in (h2_backtrace.cpp:66-100): frames with their lines *)
Definition in_fps (shift : nat) (frames : list (N * bytes)) (fps : list N) : bool := existsb (frame_in fps) (skipn shift frames).

(** follow_jmp(fp, n) (h2_cxa.cpp:39-56); to go on where the code breaks off changes nothing *)
Fixpoint follow_jmp (m : mem) (n : nat) (p : N) : N := match n with O => p | S n' => follow_jmp m n' (follow_jmp1 m p) end.
(** h2_array_append (h2_misc.hpp:25): the first null of the first [k] elements is replaced *)
Fixpoint array_append (k : nat) (a : list N) (p : N) : list N :=
  match k, a with
  | S k', x :: r => if x =? 0 then p :: r else x :: array_append k' r p
  | _, _ => a
  end.
(** h2_exempt::fps before setup (h2_exempt.hpp:3) *)
Definition no_fps : list N := repeat 0 4096.
(** h2_exempt::add_by_fp (h2_exempt.cpp:79-82) *)
Definition add_by_fp (m : mem) (fps : list N) (p : N) : list N := array_append 4095 fps (follow_jmp m 32 p).

(** fgets(buf, 1024, f): the first line, at most 1023 characters; None at the end of the file (h2_backtrace.cpp:14) *)
Fixpoint first_line (k : nat) (s : bytes) : bytes :=
  match k, s with S k', c :: r => if c =? 10 then [c] else c :: first_line k' r | _, _ => [] end.
(** the command (h2_backtrace.cpp:9) *)
Definition command (path : bytes) (a : N) : bytes := str "addr2line -C -a -s -p -f -e " ++ path ++ str " -i " ++ lower_digits 16 16 a [].
(** addr2line (h2_backtrace.cpp:2-22): [run] gives the output of a command, None if it cannot be started; the outer option is None if cmd is overrun *)
Definition addr2line (run : bytes -> option bytes) (path : bytes) (a : N) : option (option bytes) :=
  let cmd := command path a in
  if (256 <=? length cmd)%nat then None
  else Some match run cmd with
            | None | Some [] => None
            | Some out => let buf := first_line 1023 out in if contains false buf (str "??:") then None else Some (strip_right buf)
            end.
(** h2_cxa::demangle with room for 1024 bytes (h2_cxa.cpp:1-10): [readable] is __cxa_demangle; a longer result makes it call realloc on the buffer *)
Definition demangle (readable : bytes -> option bytes) (n : bytes) : option bytes :=
  match n with
  | [] => Some []
  | _ => match readable n with Some d => if (length d <? 1024)%nat then Some d else None | None => Some n end
  end.
(** the text of one frame (h2_backtrace.cpp:133-141); [addr] is the address in the file (h2_load::ptr_to_addr) *)
Definition frame_text (run : bytes -> option bytes) (readable : bytes -> option bytes) (path : bytes) (addr : N -> option N) (f : N * bytes) : option bytes :=
  let or_line := fun p : bytes => match p with [] => snd f | _ => p end in
  match addr (fst f) with
  | None => None
  | Some a =>
      match addr2line run path a with
      | None => None
      | Some (Some p) => Some (or_line p)
      | Some None => option_map or_line (demangle readable (fst (extract (snd f))))
      end
  end.
(** the frame is main or __libc_start_main (h2_backtrace.cpp:142) *)
Definition outermost (f : N * bytes) : bool :=
  let n := fst (extract (snd f)) in bytes_eqb n (str "main") || bytes_eqb n (str "__libc_start_main").
(** the loop of print(stacks) (h2_backtrace.cpp:132-143) *)
Fixpoint texts (run : bytes -> option bytes) (readable : bytes -> option bytes) (path : bytes) (addr : N -> option N) (fs : list (N * bytes)) : option (list bytes) :=
  match fs with
  | [] => Some []
  | f :: r =>
      match frame_text run readable path addr f with
      | None => None
      | Some t => if outermost f then Some [t] else option_map (cons t) (texts run readable path addr r)
      end
  end.
(** h2_backtrace::print(stacks) (h2_backtrace.cpp:102-148), the hint printed once apart; [lu], [l], [main]: the symbols and main (NmModel) *)
Definition stack_texts (run : bytes -> option bytes) (readable : bytes -> option bytes) (path : bytes) (lu : bool) (l : list symbol) (main : N)
    (shift : nat) (fs : list (N * bytes)) : option (list bytes) :=
  texts run readable path (ptr_to_addr lu l main) (skipn shift fs).
