(** Model of dynamic stubs: source/stub/h2_e9.cpp, h2_source.cpp, h2_stubs.cpp, h2_temporary.cpp and
    source/symbol/h2_cxa.cpp (x86-64 and arm64 patching, x86-64 jump following).
    Memory is a map from 64-bit addresses to bytes. mprotect is assumed to succeed. The 8-byte store into the 5-byte
    array C (h2_e9.cpp:37-38) is undefined behaviour in C++; the model keeps its effect on the five bytes of C only.
    An h2_source object is identified by its source_fp. The per-scope lists of h2_stub objects are kept as one list of
    (scope, stub), newest first, which contains every per-scope list in its order (h2_stubs.cpp:38: push adds in front). *)
From Coq Require Import List NArith ZArith Bool.
Import ListNotations.
Local Open Scope N_scope.

(** memory contents (the code written by h2_e9.cpp) *)
Definition mem := N -> N.
(** memcpy of a byte list to an address (h2_e9.cpp:35,39,75) *)
Definition put (m : mem) (a : N) (bs : list N) : mem :=
  fun x => if (a <=? x) && (x <? a + N.of_nat (length bs)) then nth (N.to_nat (x - a)) bs 0 else m x.
(** memcpy of n bytes from an address (h2_e9.cpp:22) *)
Definition get (m : mem) (a : N) (n : nat) : list N := map (fun i => m (a + N.of_nat i)) (seq 0 n).

(** little-endian bytes of an integer in memory (the memcpy / store at h2_e9.cpp:34,38) *)
Fixpoint le (n : nat) (v : N) : list N :=
  match n with O => [] | S n' => v mod 256 :: le n' (v / 256) end.
(** integer read from little-endian bytes (memcpy at h2_cxa.cpp:17,23,31) *)
Fixpoint unle (bs : list N) : N := match bs with [] => 0 | b :: r => b + 256 * unle r end.
(** two's complement reading of an n-bit value (int32_t and int8_t read at h2_cxa.cpp:17, 23, 31; the difference at h2_e9.cpp:31) *)
Definition signed (bits : N) (v : N) : Z :=
  if v <? 2 ^ (bits - 1) then Z.of_N v else (Z.of_N v - Z.of_N (2 ^ bits))%Z.
(** pointer arithmetic is modulo 2^64 (h2_cxa.cpp:18, 24, 32) *)
Definition ptr_add (a : N) (d : Z) : N := Z.to_N ((Z.of_N a + d) mod 2 ^ 64).

(** h2_e9_size on x86-64 (h2_e9.cpp:6) *)
Definition e9_size : nat := 12.
(** h2_e9_save: the saved bytes (h2_e9.cpp:11-24) *)
Definition e9_save (m : mem) (src : N) : list N := get m src e9_size.
(** delta (h2_e9.cpp:31): a signed 64-bit difference *)
Definition e9_delta (src dst : N) : Z := signed 64 (Z.to_N ((Z.of_N dst - Z.of_N src - 5) mod 2 ^ 64)).
(** the generated instructions (h2_e9.cpp:32-40) *)
Definition e9_code (src dst : N) : list N :=
  let delta := e9_delta src dst in
  if (delta <? - 0x7fffffff)%Z || (0x7fffffff <? delta)%Z
  then [0x48; 0xB8] ++ le 8 dst ++ [0xFF; 0xE0]
  else 0xE9 :: le 4 (Z.to_N (delta mod 2 ^ 32)).
(** h2_e9_set (h2_e9.cpp:26-40) *)
Definition e9_set (m : mem) (src dst : N) : mem := put m src (e9_code src dst).
(** h2_e9_reset (h2_e9.cpp:73-76) *)
Definition e9_reset (m : mem) (src : N) (opcode : list N) : mem := put m src opcode.

(** the arm64 instructions (h2_e9.cpp:45-62): ldr x17, #8; br x17; the address. The other branch is dead (line 58: 1 ||) *)
Definition arm_code (dst : N) : list N :=
  le 4 (N.lor (N.lor 0x58000000 (N.shiftl (8 / 4) 5)) 17) ++ le 4 (N.lor 0xD61F0000 (N.shiftl 17 5)) ++ le 8 dst.
(** h2_e9_set on arm64 (h2_e9.cpp:58-62) *)
Definition arm_set (m : mem) (src dst : N) : mem := put m src (arm_code dst).

(** follow_JMP32REL (h2_cxa.cpp:14-19) *)
Definition follow_JMP32REL (m : mem) (p : N) : N := ptr_add p (5 + signed 32 (unle (get m (p + 1) 4))).
(** follow_JMP8REL (h2_cxa.cpp:20-25) *)
Definition follow_JMP8REL (m : mem) (p : N) : N := ptr_add p (2 + signed 8 (unle (get m (p + 1) 1))).
(** follow_JMP32ABS, 64-bit (h2_cxa.cpp:26-37) *)
Definition follow_JMP32ABS (m : mem) (p : N) : N :=
  unle (get m (ptr_add p (signed 32 (unle (get m (p + 2) 4)) + 6)) 8).
(** follow_jmp(fp, 1) (h2_cxa.cpp:39-56) *)
Definition follow_jmp1 (m : mem) (p : N) : N :=
  if m p =? 0xE9 then follow_JMP32REL m p
  else if m p =? 0xEB then follow_JMP8REL m p
  else if (m p =? 0xFF) && (m (p + 1) =? 0x25) then follow_JMP32ABS m p
  else if (m p =? 0x48) && (m (p + 1) =? 0xFF) && (m (p + 2) =? 0x25) then follow_JMP32ABS m (p + 1)
  else p.

(** h2_source (h2_source.cpp:1-19) *)
Record source := mksource { s_fp : N; s_origin : list N; s_ref : N }.
(** h2_stub (h2_stubs.cpp:1-23): srcfp, saved_opcode, source *)
Record stub := mkstub { t_src : N; t_saved : list N; t_source : N }.
(** memory, h2_sources::sources (h2_source.cpp:21-23) and all stub lists *)
Record state := mkstate { code : mem; sources : list source; stubs : list (N * stub) }.

(** __find (h2_source.cpp:25-31) *)
Definition find_source (st : state) (fp : N) : option source := find (fun s => s_fp s =? fp) (sources st).
(** __follow (h2_source.cpp:33-45) *)
Definition follow (st : state) (fp : N) : N :=
  match find_source st fp with Some _ => fp | None => follow_jmp1 (code st) fp end.

(** reference_count++ / -- on the source found (h2_source.cpp:57,63) *)
Definition set_ref (l : list source) (fp : N) (f : N -> N) : list source :=
  map (fun s => if s_fp s =? fp then mksource (s_fp s) (s_origin s) (f (s_ref s)) else s) l.

(** h2_sources::add (h2_source.cpp:49-59) *)
Definition source_add (st : state) (fp : N) : state * N :=
  let sfp := follow st fp in
  let l := match find_source st sfp with
           | Some _ => sources st
           | None => mksource sfp (e9_save (code st) sfp) 0 :: sources st
           end in
  (mkstate (code st) (set_ref l sfp (fun r => r + 1)) (stubs st), sfp).

(** h2_sources::del and ~h2_source (h2_source.cpp:61-67,14) *)
Definition source_del (st : state) (sfp : N) : state :=
  match find_source st sfp with
  | None => st
  | Some s =>
      if s_ref s - 1 =? 0
      then mkstate (e9_reset (code st) sfp (s_origin s)) (filter (fun x => negb (s_fp x =? sfp)) (sources st)) (stubs st)
      else mkstate (code st) (set_ref (sources st) sfp (fun r => r - 1)) (stubs st)
  end.

(** is this the stub of that scope for that function? (h2_stubs.cpp:27-28) *)
Definition is_stub (scope src : N) (x : N * stub) : bool := (fst x =? scope) && (t_src (snd x) =? src).
(** h2_stubs_get (h2_stubs.cpp:25-31) *)
Definition stubs_get (st : state) (scope src : N) : option stub := option_map snd (find (is_stub scope src) (stubs st)).

(** h2_stubs::add (h2_stubs.cpp:33-42) with h2_stub::h2_stub (7-11) and stub (19-22) *)
Definition stub_add (st : state) (scope src dst : N) : state :=
  match stubs_get st scope src with
  | Some t => mkstate (e9_set (code st) (t_source t) dst) (sources st) (stubs st)
  | None =>
      let (st1, sfp) := source_add st src in
      mkstate (e9_set (code st1) sfp dst) (sources st1) ((scope, mkstub src (e9_save (code st1) sfp) sfp) :: stubs st1)
  end.

(** ~h2_stub (h2_stubs.cpp:12-18) *)
Definition stub_delete (st : state) (t : stub) : state :=
  source_del (mkstate (e9_reset (code st) (t_source t) (t_saved t)) (sources st) (stubs st)) (t_source t).

(** x.out(): take the first stub satisfying f out of the list (h2_stubs.cpp:48,56) *)
Fixpoint take (f : N * stub -> bool) (l : list (N * stub)) : option (stub * list (N * stub)) :=
  match l with
  | [] => None
  | x :: r => if f x then Some (snd x, r)
              else match take f r with None => None | Some (t, r') => Some (t, x :: r') end
  end.

(** h2_stubs::clear(stubs, srcfp) (h2_stubs.cpp:44-51) *)
Definition stub_clear (st : state) (scope src : N) : state :=
  match take (is_stub scope src) (stubs st) with
  | None => st
  | Some (t, r) => stub_delete (mkstate (code st) (sources st) r) t
  end.

(** h2_stubs::clear(stubs) (h2_stubs.cpp:53-59); the budget is the number of stubs of the scope *)
Fixpoint clear_loop (n : nat) (st : state) (scope : N) : state :=
  match n with
  | O => st
  | S n' =>
      match take (fun x => fst x =? scope) (stubs st) with
      | None => st
      | Some (t, r) => clear_loop n' (stub_delete (mkstate (code st) (sources st) r) t) scope
      end
  end.
(** h2_stubs::clear(stubs) (h2_stubs.cpp:53-59) *)
Definition stub_clear_all (st : state) (scope : N) : state := clear_loop (length (stubs st)) st scope.

(** h2_stub_temporary_restore constructor (h2_temporary.cpp:1-8): saved bytes if there is a source *)
Definition temporary_begin (st : state) (src : N) : state * option (list N) :=
  match find_source st (follow st src) with
  | None => (st, None)
  | Some s => (mkstate (e9_reset (code st) (s_fp s) (s_origin s)) (sources st) (stubs st), Some (e9_save (code st) (s_fp s)))
  end.
(** h2_stub_temporary_restore destructor (h2_temporary.cpp:10-14); [junk] stands for the uninitialised buffer *)
Definition temporary_end (st : state) (src : N) (saved : option (list N)) (junk : list N) : state :=
  match find_source st (follow st src) with
  | None => st
  | Some s => mkstate (e9_reset (code st) (s_fp s) (match saved with Some b => b | None => junk end)) (sources st) (stubs st)
  end.

(** what a program can do with stubs (h2_stubs.cpp:33-59) *)
Inductive event :=
| Add (scope src dst : N)      (* h2_stubs::add, h2_stubs.cpp:33 *)
| Clear (scope src : N)        (* h2_stubs::clear(list, srcfp), h2_stubs.cpp:44 *)
| ClearAll (scope : N).        (* h2_stubs::clear(list), h2_stubs.cpp:53 *)
(** one event (h2_stubs.cpp:33-59) *)
Definition step (st : state) (e : event) : state :=
  match e with
  | Add scope src dst => stub_add st scope src dst
  | Clear scope src => stub_clear st scope src
  | ClearAll scope => stub_clear_all st scope
  end.
