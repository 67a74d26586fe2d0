(** Model of the attributes of BLOCK(...): h2_block_attributes (source/memory/h2_block.cpp:1-29) and the attribute unmem
    (source/memory/h2_memory.cpp:63-68), with get_keyvalue and hex2bytes (source/utils/h2_misc.cpp:52-84).

    strtod is the parameter [real]: the integral part of the number read, None where its conversion to an unsigned 64 bit
    number is undefined.  strtoull is that of the C library with base 10.  Numbers are stored with the least significant byte
    first. *)
From Coq Require Import List NArith ZArith Bool Arith.
From Verif Require Import Base FilterModel MemModel SockModel MemcmpModel.
Import ListNotations.
Local Open Scope N_scope.

(** the bytes hex2bytes writes into s_fill[32] (h2_block.cpp:5, 11; h2_misc.cpp:66-84): how many and the buffer *)
Definition fill_hex (s : bytes) : option (nat * mem) :=
  let c := count_xdigits s in
  match (if Nat.odd c then hex_loop s 1 c 1 48 (repeat None 32) else hex_loop s 0 c 0 0 (repeat None 32)) with
  | Some m => Some (((if Nat.odd c then c + 1 else c) / 2)%nat, m)
  | None => None
  end.
(** the first bytes of the buffer, as the filling loop reads them (h2_block.cpp:84-92) *)
Fixpoint filled (k : nat) (m : mem) : option (list N) :=
  match k with
  | O => Some []
  | S k' => match m with Some x :: m' => option_map (cons x) (filled k' m') | _ => None end
  end.
(** digits of strtoull, 2^64-1 if there are too many (strtoull, h2_block.cpp:13) *)
Fixpoint ull_digits (s : bytes) (a : N) : N :=
  match s with
  | c :: r => if (48 <=? c) && (c <=? 57) then ull_digits r (N.min (10 * a + (c - 48)) (2 ^ 64)) else a
  | [] => a
  end.
(** strtoull(p, nullptr, 10) (h2_block.cpp:13) *)
Definition strtoull (s : bytes) : N :=
  let clip n := if n <? 2 ^ 64 then n else 2 ^ 64 - 1 in
  match strip_left s with
  | 45 :: r => let n := ull_digits r 0 in if n <? 2 ^ 64 then (2 ^ 64 - n) mod 2 ^ 64 else 2 ^ 64 - 1
  | 43 :: r => clip (ull_digits r 0)
  | r => clip (ull_digits r 0)
  end.
(** a number of k bytes in memory (h2_block.cpp:14-17) *)
Fixpoint stored (k : nat) (v : N) : list N := match k with O => [] | S k' => v mod 256 :: stored k' (v / 256) end.
(** parse_fill (h2_block.cpp:8-19): the bytes *)
Definition parse_fill (p : bytes) : option (list N) :=
  match p with
  | 48 :: x :: r => if tolower x =? 120 then match fill_hex r with Some (n, m) => filled n m | None => None end else
      let v := strtoull p in Some (stored (if v <=? 0xFF then 1 else if v <=? 0xFFFF then 2 else if v <=? 0xFFFFFFFF then 4 else 8) v)
  | _ => let v := strtoull p in Some (stored (if v <=? 0xFF then 1 else if v <=? 0xFFFF then 2 else if v <=? 0xFFFFFFFF then 4 else 8) v)
  end.
(** if ((p = get_keyvalue(attributes, key))) x = f(p) (h2_block.cpp:24-27) *)
Definition keyed {A} (s key : bytes) (f : bytes -> option A) (x : A) : option A :=
  match get_keyvalue s key with Some p => f p | None => Some x end.
(** h2_block_attributes::h2_block_attributes (h2_block.cpp:21-28) *)
Definition block_attributes (real : bytes -> option N) (s : bytes) : option attrs :=
  let noleak := match get_keyvalue s (str "noleak") with Some _ => true | None => a_noleak default_attrs end in
  match keyed s (str "limit") real (a_limit default_attrs) with
  | None => None
  | Some limit =>
      match keyed s (str "align") real (a_align default_attrs) with
      | None => None
      | Some align =>
          match keyed s (str "fill") parse_fill (a_fill default_attrs) with
          | None => None
          | Some fill => Some (mkattrs limit align fill noleak)
          end
      end
  end.
(** unmem = !!get_keyvalue(attributes, "unmem") (h2_memory.cpp:65) *)
Definition block_unmem (s : bytes) : bool := match get_keyvalue s (str "unmem") with Some _ => true | None => false end.
