(** Model of Me(...): memory comparison (source/matcher/h2_matches_memcmp.cpp:1-41, h2_matches_memcmp.hpp:9-44) and of the
    decoding of hexadecimal literals (source/utils/h2_misc.cpp:61-86).

    A buffer is the list of bytes readable from its address on, None = not initialised; reading or writing outside, or using
    an uninitialised byte, is undefined: result None.  A literal is the list of its characters before the NUL.
    ctype functions are those of the "C" locale.  Texts of failures are not modelled. *)
From Coq Require Import List NArith ZArith Bool Arith.
From Verif Require Import Base FilterModel.
Import ListNotations.
Local Open Scope N_scope.

(** memory (the buffers b1, b2 of h2_matches_memcmp.cpp:1; None = not readable) *)
Definition mem := list (option N).
(** a byte of it (b1[i], h2_matches_memcmp.cpp:4-5) *)
Definition get (m : mem) (i : nat) : option N := match nth_error m i with Some (Some x) => Some x | _ => None end.
(** store a byte (bytes[i] = v, h2_matches_memcmp.cpp:29, 36, h2_misc.cpp:66-84) *)
Fixpoint put (m : mem) (i : nat) (v : N) : option mem :=
  match m, i with
  | [], _ => None
  | _ :: r, O => Some (Some v :: r)
  | x :: r, S i' => match put r i' v with Some r' => Some (x :: r') | None => None end
  end.
(** isxdigit in the "C" locale (h2_misc.cpp:71, h2_matches_memcmp.cpp:14) *)
Definition isxdigit (c : byte) : bool := ((48 <=? c) && (c <=? 57)) || ((65 <=? c) && (c <=? 70)) || ((97 <=? c) && (c <=? 102)).
(** h2_memcmp_util::bits_equal (h2_matches_memcmp.cpp:1-8); [k] more bits from bit [n] on *)
Fixpoint bits_loop (b1 b2 : mem) (k n : nat) : option bool :=
  match k with
  | O => Some true
  | S k' =>
      let j := N.of_nat (7 - n mod 8) in
      match get b1 (n / 8), get b2 (n / 8) with
      | Some x, Some y => if N.land (N.shiftr x j) 1 =? N.land (N.shiftr y j) 1 then bits_loop b1 b2 k' (S n) else Some false
      | _, _ => None
      end
  end.
(** h2_memcmp_util::bits_equal (h2_matches_memcmp.cpp:1-8) *)
Definition bits_equal (b1 b2 : mem) (nbits : N) : option bool := bits_loop b1 b2 (N.to_nat nbits) 0.
(** h2_memcmp_util::is_hex_string (h2_matches_memcmp.cpp:10-17) *)
Definition is_hex_string (s : bytes) : bool :=
  match s with 48 :: x :: _ => tolower x =? 120 | _ => false end || forallb (fun c => isxdigit c || isspace c) s.
(** h2_memcmp_util::is_bin_string (h2_matches_memcmp.cpp:19-25) *)
Definition is_bin_string (s : bytes) : bool := forallb (fun c => (c =? 48) || (c =? 49) || isspace c) s.
(** the loop of bin_to_bits (h2_matches_memcmp.cpp:31-37) *)
Fixpoint bin_loop (s : bytes) (c : nat) (m : mem) : option (nat * mem) :=
  match s with
  | [] => Some (c, m)
  | ch :: s' =>
      if ch =? 32 then bin_loop s' c m
      else match get m (c / 8) with
           | Some x => match put m (c / 8) (N.lor x (N.shiftl (if ch =? 49 then 1 else 0) (N.of_nat (7 - c mod 8)))) with
                       | Some m' => bin_loop s' (S c) m'
                       | None => None
                       end
           | None => None
           end
  end.
(** h2_memcmp_util::bin_to_bits (h2_matches_memcmp.cpp:27-39), into a buffer of strlen bytes, cleared first *)
Definition bin_to_bits (s : bytes) : option (nat * mem) := bin_loop s 0 (repeat (Some 0) (length s)).
(** hex2byte (h2_misc.cpp:61-64) *)
Definition hex2byte (c : byte) : Z :=
  if (48 <=? c) && (c <=? 57) then Z.of_N c - 48
  else if (65 <=? c) && (c <=? 70) then Z.of_N c - 65 + 10
  else if (97 <=? c) && (c <=? 102) then Z.of_N c - 97 + 10 else -1.
(** for (; ::isxdigit(hex[c]);) ++c (h2_misc.cpp:71) *)
Fixpoint count_xdigits (s : bytes) : nat := match s with c :: s' => if isxdigit c then S (count_xdigits s') else O | [] => O end.
(** the second loop of hex2bytes (h2_misc.cpp:78-82): [k] iterations from [i] on, hex moved back by [off] *)
Fixpoint hex_loop (s : bytes) (off k i : nat) (b : byte) (m : mem) : option mem :=
  match k with
  | O => Some m
  | S k' =>
      let ch := nth (i - off) s 0 in
      match (if Nat.odd i then put m (i / 2) (Z.to_N ((Z.shiftl (hex2byte b) 4 + hex2byte ch) mod 256)) else Some m) with
      | Some m' => hex_loop s off k' (S i) ch m'
      | None => None
      end
  end.
(** hex2bytes (h2_misc.cpp:66-84) into a buffer of strlen bytes; b is not initialised for an even count, and not used before
    it is assigned *)
Definition hex2bytes (s : bytes) : option (nat * mem) :=
  let c := count_xdigits s in
  match (if Nat.odd c then hex_loop s 1 c 1 48 (repeat None (length s)) else hex_loop s 0 c 0 0 (repeat None (length s))) with
  | Some m => Some (((if Nat.odd c then c + 1 else c) / 2)%nat, m)
  | None => None
  end.
(** strcmp(b, a) == 0 with a literal b (h2_matches_memcmp.hpp:24) *)
Fixpoint same_text (b : bytes) (a : mem) : option bool :=
  match a with
  | Some x :: a' => match b with [] => Some (x =? 0) | c :: b' => if c =? x then same_text b' a' else Some false end
  | _ => None
  end.
(** what Me(...) is given: a literal (convertible to a string) or another buffer with the size of its elements (h2_matches_memcmp.hpp:9-13, 46-52) *)
Inductive source := Literal (s : bytes) | Buffer (m : mem) (pointee : N).
(** outcome: match, mismatch with the two buffers and the sizes, "size not specified" (h2_matches_memcmp.hpp:37, 40-41) *)
Inductive verdict := Match | Mismatch | NoSize.
(** the bytes of a source as memory (h2_matches_memcmp.hpp:16) *)
Definition source_mem (e : source) : mem := match e with Literal s => map Some s ++ [Some 0] | Buffer m _ => m end.
(** size_t products (h2_matches_memcmp.hpp:38) *)
Definition size_mul (z w : N) : N := (z * w) mod 18446744073709551616.
(** the end of it (h2_matches_memcmp.hpp:35-41) *)
Definition compare (neg : bool) (e : mem) (pointee : N) (a : mem) (dimension z w : N) : option verdict :=
  let w := if w =? 0 then pointee * 8 else w in
  let z := if z =? 0 then dimension else z in
  if (z =? 0) || (w =? 0) then Some NoSize
  else match bits_equal e a (size_mul z w) with
       | Some r => Some (if Bool.eqb r (negb neg) then Match else Mismatch)
       | None => None
       end.
(** h2_matches_memcmp::matches (h2_matches_memcmp.hpp:14-42) *)
Definition me (neg : bool) (e : source) (dimension size width : N) (a : mem) : option verdict :=
  match e with
  | Literal s =>
      if (width =? 0) && (size =? 0) then
        match same_text s a with
        | None => None
        | Some true => Some (if neg then Mismatch else Match)
        | Some false =>
            if is_bin_string s then match bin_to_bits s with Some (z, m) => compare neg m 1 a dimension (N.of_nat z) 1 | None => None end
            else if is_hex_string s then match hex2bytes s with Some (z, m) => compare neg m 1 a dimension (N.of_nat z) 8 | None => None end
            else compare neg (source_mem e) 1 a dimension (N.of_nat (length s)) 8
        end
      else compare neg (source_mem e) 1 a dimension size width
  | Buffer m p => compare neg m p a dimension size width
  end.
