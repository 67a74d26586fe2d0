(** Model of the lookup of functions: the symbols of the program as listed by nm and their search
    (source/symbol/h2_nm.cpp:1-117, source/symbol/h2_nm.hpp:1-16), the address a program is loaded at
    (source/symbol/h2_load.cpp:1-43), which function a name or a pointer to a member function denotes
    (source/stub/h2_fp.hpp:81-95, 162-205) and the functions exempted by name (source/memory/h2_exempt.cpp:72-82).

    The branches without _MSC_VER are followed.  The output of nm is a text without NUL bytes.  The lists of symbols are read
    once and never change: they are arguments here.  Pointers are 64 bit wide. *)
From Coq Require Import List NArith ZArith Bool Arith.
From Verif Require Import Base FilterModel MemcmpModel.
Import ListNotations.
Local Open Scope N_scope.

(** h2_symbol (h2_nm.hpp:1-7); the constructor keeps 127 characters *)
Record symbol := mksymbol { sym : bytes; at_ : N }.
(** h2_symbol::h2_symbol (h2_nm.hpp:5) *)
Definition new_symbol (s : bytes) (a : N) : symbol := mksymbol (firstn 127 s) a.

(** the lines fgets returns, with room for [k] more characters in the current one, whose beginning is [cur] reversed (h2_nm.cpp:9) *)
Fixpoint fgets (k : nat) (cur : bytes) (s : bytes) : list bytes :=
  match s with
  | [] => match cur with [] => [] | _ => [rev cur] end
  | c :: s' =>
      match c =? 10, k with
      | true, _ | false, O => rev (c :: cur) :: fgets 2045 [] s'
      | false, S k' => fgets k' (c :: cur) s'
      end
  end.
(** the characters up to the first one not accepted, and the others (%s and %[^\n] of sscanf, h2_nm.cpp:10) *)
Fixpoint span (f : byte -> bool) (s : bytes) : bytes * bytes :=
  match s with
  | c :: s' => if f c then let (a, b) := span f s' in (c :: a, b) else ([], s)
  | [] => ([], [])
  end.
(** sscanf(line, "%s %c %[^\n]", addr, &type, symbol) == 3 (h2_nm.cpp:10) *)
Definition sscanf3 (line : bytes) : option (bytes * byte * bytes) :=
  match span (fun c => negb (isspace c)) (strip_left line) with
  | ([], _) => None
  | (a, r) =>
      match strip_left r with
      | [] => None
      | t :: r' => match span (fun c => negb (c =? 10)) (strip_left r') with ([], _) => None | (s, _) => Some (a, t, s) end
      end
  end.
(** the characters of the address even if the other two items are missing: addr has room for 127 of them (h2_nm.cpp:5, 10) *)
Definition overrun (line : bytes) : bool := (128 <=? length (fst (span (fun c => negb (isspace c)) (strip_left line))))%nat.
(** strtoull(addr, nullptr, 16) of digits without sign or 0x (h2_nm.cpp:12) *)
Fixpoint hex_digits (s : bytes) (a : N) : N :=
  match s with
  | c :: r => if isxdigit c then hex_digits r (N.min (16 * a + Z.to_N (hex2byte c)) (2 ^ 64)) else a
  | [] => a
  end.
(** the number itself, 2^64-1 if there are too many digits (strtoull, h2_nm.cpp:12) *)
Definition strtoull16 (s : bytes) : N := N.min (hex_digits s 0) (2 ^ 64 - 1).
(** strchr("bBcCdDiIuU", type) (h2_nm.cpp:11) *)
Definition rejected (t : byte) : bool := existsb (N.eqb t) (str "bBcCdDiIuU").
(** the loop of __nm (h2_nm.cpp:9-13); None: addr is overrun *)
Fixpoint nm_lines (ls : list bytes) : option (list symbol) :=
  match ls with
  | [] => Some []
  | l :: ls' =>
      if overrun l then None else
      match sscanf3 l with
      | None => nm_lines ls'
      | Some (a, t, s) => if rejected t then nm_lines ls' else option_map (cons (new_symbol s (strtoull16 a))) (nm_lines ls')
      end
  end.
(** __nm (h2_nm.cpp:2-17) of the output of the command *)
Definition nm (output : bytes) : option (list symbol) := nm_lines (fgets 2045 [] output).
(** __leading_underscore (h2_nm.cpp:18-26) *)
Fixpoint leading_underscore_loop (found : bool) (l : list symbol) : bool :=
  match l with
  | [] => found
  | p :: l' => if bytes_eqb (str "main") (sym p) then false else leading_underscore_loop (if bytes_eqb (str "_main") (sym p) then true else found) l'
  end.
(** h2_nm::leading_underscore (h2_nm.cpp:27-31) *)
Definition leading_underscore (l : list symbol) : bool := leading_underscore_loop false l.
(** h2_symbol::name (h2_nm.cpp:34-37) *)
Definition name_of (lu : bool) (p : symbol) : bytes :=
  match lu, sym p with true, 95 :: r => r | _, s => s end.
(** strchr(s, '(') (h2_nm.cpp:71) *)
Fixpoint parenthesis (s : bytes) : option nat :=
  match s with [] => None | c :: s' => if c =? 40 then Some O else option_map S (parenthesis s') end.
(** the tests of a symbol in the second loop (h2_nm.cpp:71-75); None: a character before the symbol is read *)
Definition candidate (name s : bytes) : option bool :=
  match parenthesis s with
  | None => Some false
  | Some p =>
      let len := length name in
      if (p <? len)%nat then Some false else
      if bytes_eqb (firstn len (skipn (p - len) s)) name then
        match (p - len)%nat with
        | O => Some true
        | S O => if nth 0 s 0 =? 58 then None else Some false
        | S (S j) => Some ((nth (S j) s 0 =? 58) && (nth j s 0 =? 58))
        end
      else Some false
  end.
(** the first loop (h2_nm.cpp:63-68) *)
Definition exact (lu : bool) (l : list symbol) (name : bytes) : option symbol := find (fun p => bytes_eqb (name_of lu p) name) l.
(** the second loop, with room for [n] more results (h2_nm.cpp:69-78) *)
Fixpoint scoped (lu : bool) (l : list symbol) (name : bytes) (n : nat) : option (list symbol) :=
  match l with
  | [] => Some []
  | p :: l' =>
      match candidate name (name_of lu p) with
      | None => None
      | Some false => scoped lu l' name n
      | Some true => match n with O => scoped lu l' name O | S n' => option_map (cons p) (scoped lu l' name n') end
      end
  end.
(** h2_nm::get_by_name (h2_nm.cpp:45-80); a null pointer is None *)
Definition get_by_name (lu : bool) (l : list symbol) (name : option bytes) (n : nat) : option (list symbol) :=
  match name with
  | None | Some [] => Some []
  | Some f => match exact lu l f with Some p => Some [p] | None => scoped lu l f n end
  end.
(** h2_nm::get_mangle (h2_nm.cpp:99-117) *)
Definition get_mangle (lu : bool) (l : list symbol) (name : bytes) : N :=
  match name with [] => 0 | _ => match exact lu l name with Some p => at_ p | None => 0 end end.

(** arithmetic of unsigned long long (h2_load.cpp:5, 16, 22, 31, 41) *)
Definition w64 (x : Z) : N := Z.to_N (x mod 2 ^ 64).
(** get_load_text_offset (h2_load.cpp:1-6), [main] being the address of main in memory *)
Definition text_offset (lu : bool) (l : list symbol) (main : N) : option Z :=
  match get_by_name lu l (Some (str "main")) 16 with
  | None => None
  | Some [] => Some 0%Z
  | Some (p :: _) => Some (Z.of_N main - Z.of_N (at_ p))%Z
  end.
(** h2_load::addr_to_ptr (h2_load.cpp:25-33) *)
Definition addr_to_ptr (lu : bool) (l : list symbol) (main a : N) : option N :=
  option_map (fun o => w64 (Z.of_N a + o)) (text_offset lu l main).
(** h2_load::ptr_to_addr (h2_load.cpp:35-43) *)
Definition ptr_to_addr (lu : bool) (l : list symbol) (main p : N) : option N :=
  option_map (fun o => w64 (Z.of_N p - o)) (text_offset lu l main).

(** what a lookup comes to: a pointer, or a failure naming candidates and a null pointer (h2_fp.hpp:89-93) *)
Inductive located := Found (p : N) | Failed (candidates : list bytes).
(** h2_fp<>::get of a name (h2_fp.hpp:85-94) *)
Definition get (lu : bool) (l : list symbol) (main : N) (fn : option bytes) : option located :=
  match get_by_name lu l fn 16 with
  | None => None
  | Some [p] => option_map Found (addr_to_ptr lu l main (at_ p))
  | Some r => Some (Failed (map (name_of lu) r))
  end.
(** every element, if there is one for each (h2_exempt.cpp:76) *)
Fixpoint all_some {A} (l : list (option A)) : option (list A) :=
  match l with [] => Some [] | Some x :: l' => option_map (cons x) (all_some l') | None :: _ => None end.
(** h2_exempt::add_by_name (h2_exempt.cpp:72-77): the functions handed to add_by_fp *)
Definition exempted (lu : bool) (l : list symbol) (main : N) (fn : option bytes) : option (list N) :=
  match get_by_name lu l fn 16 with
  | None => None
  | Some r => all_some (map (fun p => addr_to_ptr lu l main (at_ p)) r)
  end.

(** is_virtual_mfp (h2_fp.hpp:199-205), [odd] telling whether &h2_vtable_test::dummy is odd *)
Definition is_virtual_mfp (odd : bool) (f : N) : bool :=
  if odd then N.odd f && ((f - 1) mod 8 =? 0) && (f <? 1000 * 8) else (f mod 8 =? 0) && (f <? 100 * 8).
(** get_virtual_mfp (h2_fp.hpp:195-198): [word] is the pointer stored at an address *)
Definition get_virtual_mfp (word : N -> N) (vtable f : N) : N := word (vtable + 8 * (N.ldiff f 1 / 8)).
(** h2_fp<Class, ...>::get2 (h2_fp.hpp:185-189), [vtable] being what is stored at the beginning of the object *)
Definition get2 (odd : bool) (word : N -> N) (vtable f : N) : N := if is_virtual_mfp odd f then get_virtual_mfp word vtable f else f.
(** get_load_vtable_offset (h2_load.cpp:8-17), [test] being the vtable stored in an h2_vtable_test and [test_symbol] its mangled name *)
Definition vtable_offset (lu : bool) (l : list symbol) (test : N) (test_symbol : bytes) : Z := (Z.of_N test - Z.of_N (get_mangle lu l test_symbol))%Z.
(** h2_load::vtable_to_ptr (h2_load.cpp:19-23) *)
Definition vtable_to_ptr (lu : bool) (l : list symbol) (test : N) (test_symbol : bytes) (a : N) : N := w64 (Z.of_N a + vtable_offset lu l test test_symbol).
(** h2_fp<Class, ...>::get1 (h2_fp.hpp:162-184): [object] is the vtable of an object of the class if one can be made, [class] the
    mangled name of the class; None: the lookup fails with no candidate *)
Definition get1 (odd lu : bool) (word : N -> N) (l : list symbol) (test : N) (test_symbol : bytes) (object : option N) (class : bytes) (f : N) : option N :=
  if is_virtual_mfp odd f then
    match object with
    | Some v => Some (get_virtual_mfp word v f)
    | None =>
        let v := get_mangle lu l (str "_ZTV" ++ class) in
        let r := if v =? 0 then get_mangle lu l (str "_ZTI" ++ class) else v in
        if r =? 0 then None else Some (get_virtual_mfp word (vtable_to_ptr lu l test test_symbol r) f)
    end
  else Some f.
