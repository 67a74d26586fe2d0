(** Model of h2_stringify (source/utils/h2_stringify.hpp:1-179): how values are shown in reports.

    Which specialisation serves a type is the C++ compiler's choice; here a value says which one it is.  std::to_string of a number
    with a fraction is printf("%f"): six decimals, rounded to nearest, halves to even; the number is an exact rational (so there is no
    negative zero).  What operator<< or a tostring() writes is given with the value. *)
From Coq Require Import List NArith ZArith QArith Qabs Qround Bool Arith.
From Verif Require Import Base LineModel JunitModel MessageModel.
Import ListNotations.
Local Open Scope N_scope.

(** the values shown (h2_stringify.hpp:1-179) *)
Inductive value :=
| VBool (b : bool)                (* h2_stringify.hpp:123-126 *)
| VInt (z : Z)                    (* numbers without fraction, h2_stringify.hpp:53-72, 138-141 *)
| VReal (q : Q)                   (* numbers with a fraction, h2_stringify.hpp:53-72 *)
| VNonfinite (s : bytes)          (* inf, nan as std::to_string writes them, h2_stringify.hpp:53-72 *)
| VNullptr                        (* h2_stringify.hpp:118-121 *)
| VText (s : bytes)               (* texts, h2_stringify.hpp:42-51, 128-136, 174-176 *)
| VNull                           (* a null pointer to characters, h2_stringify.hpp:128-136, 158-166 *)
| VChar (c : byte)                (* h2_stringify.hpp:143-146 *)
| VWide (l : list Z)              (* texts of wide characters, h2_stringify.hpp:148-166 *)
| VWchar (c : Z)                  (* h2_stringify.hpp:168-171 *)
| VObject (s : bytes)             (* what has a tostring(), h2_stringify.hpp:20-32 *)
| VStreamed (s : bytes)           (* what has an operator<< and is no text, h2_stringify.hpp:42-51 *)
| VOpaque                         (* anything else, h2_stringify.hpp:1-4 *)
| VPair (a b : value)             (* h2_stringify.hpp:74-80 *)
| VSeq (l : list value)           (* containers and their adaptors, h2_stringify.hpp:82-103 *)
| VTuple (l : list value).        (* h2_stringify.hpp:105-116 *)

(** the millionths of a number that is not negative, rounded: std::to_string (h2_stringify.hpp:63) *)
Definition micros (q : Q) : N :=
  let x := (q * inject_Z 1000000)%Q in
  let f := Qfloor x in
  let r := (x - inject_Z f)%Q in
  Z.to_N (match (r ?= 1 # 2)%Q with Lt => f | Gt => f + 1 | Eq => if Z.even f then f else f + 1 end)%Z.
(** six digits of a number below a million: std::to_string (h2_stringify.hpp:63) *)
Definition six (n : N) : bytes := [48 + n / 100000; 48 + n / 10000 mod 10; 48 + n / 1000 mod 10; 48 + n / 100 mod 10; 48 + n / 10 mod 10; 48 + n mod 10].
(** std::to_string of a number without fraction (h2_stringify.hpp:63) *)
Definition to_string_int (z : Z) : bytes := match z with Zneg p => 45 :: dec (Npos p) | _ => dec (Z.to_N z) end.
(** std::to_string of a number with a fraction (h2_stringify.hpp:63) *)
Definition to_string_real (q : Q) : bytes :=
  let n := micros (Qabs q) in (if Qle_bool 0 q then [] else [45]) ++ dec (n / 1000000) ++ [46] ++ six (n mod 1000000).
(** str.erase(str.find_last_not_of(c) + 1) (h2_stringify.hpp:66-67) *)
Fixpoint drop_while (c : byte) (s : bytes) : bytes := match s with x :: r => if x =? c then drop_while c r else s | [] => [] end.
(** likewise (h2_stringify.hpp:66-67) *)
Definition erase_last (c : byte) (s : bytes) : bytes := rev (drop_while c (rev s)).
(** the zeros and the point at the end go (h2_stringify.hpp:65-68) *)
Definition shorten (s : bytes) : bytes := if existsb (N.eqb 46) s then erase_last 46 (erase_last 48 s) else s.
(** c_str() (h2_stringify.hpp:49, 69) *)
Fixpoint c_str (s : bytes) : bytes := match s with c :: r => if c =? 0 then [] else c :: c_str r | [] => [] end.
(** gray(quote_if(represent)) (h2_stringify.hpp:22, 49; h2_misc.hpp:15) *)
Definition quote (represent : bool) : line := gray (if represent then [34] else []).
(** gray(quote_if(represent, "'")) (h2_stringify.hpp:145; h2_misc.hpp:15) *)
Definition apostrophe (represent : bool) : line := gray (if represent then [39] else []).
(** a text (h2_stringify.hpp:42-51) *)
Definition print_text (represent : bool) (s : bytes) : line := quote represent ++ [c_str s] ++ quote represent.
(** a character (h2_stringify.hpp:143-146) *)
Definition print_char (represent : bool) (c : byte) : line := apostrophe represent ++ [[c]] ++ apostrophe represent.
(** (c <= 0xff) ? static_cast<char>(c) : '?' (h2_stringify.hpp:153, 170) *)
Definition narrow (c : Z) : byte := if (c <=? 255)%Z then Z.to_N (c mod 256) else 63.
(** gray(comma_if(...)) between the elements (h2_stringify.hpp:89, 114) *)
Fixpoint separated (ls : list line) (first : bool) : line :=
  match ls with [] => [] | l :: r => gray (if first then [] else str ", ") ++ l ++ separated r false end.
(** h2_stringify_impl<T>::print (h2_stringify.hpp:1-179) *)
Fixpoint print (represent : bool) (v : value) : line :=
  match v with
  | VBool b => [if b then str "true" else str "false"]
  | VInt z => [shorten (to_string_int z)]
  | VReal q => [shorten (to_string_real q)]
  | VNonfinite s => [shorten s]
  | VNullptr => [str "nullptr"]
  | VText s => print_text represent s
  | VNull => [str "(null)"]
  | VChar c => print_char represent c
  | VWide l => print_text represent (map narrow l)
  | VWchar c => print_char represent (narrow c)
  | VObject s => quote represent ++ [s] ++ quote represent
  | VStreamed s => [c_str s]
  | VOpaque => [str "?"]
  | VPair a b => gray (str "(") ++ print represent a ++ gray (str ", ") ++ print represent b ++ gray (str ")")
  | VSeq l => if (100 <? length l)%nat then gray (str "[") ++ [str "..."] ++ gray (str "]")
              else gray (str "[") ++ separated (map (print represent) l) true ++ gray (str "]")
  | VTuple l => gray (str "(") ++ separated (map (print represent) l) true ++ gray (str ")")
  end.
