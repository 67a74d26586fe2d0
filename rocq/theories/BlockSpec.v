(** What the attributes of a BLOCK mean. *)
From Coq Require Import List NArith ZArith Bool Arith.
From Verif Require Import Base MemModel MemcmpSpec.
Import ListNotations.
Local Open Scope N_scope.

(** a word, capital or small *)
Definition worded (k b : bytes) : Prop := fold_str true b = fold_str true k.
(** the first place of a word in a text: behind [a], followed by [c] *)
Definition first_at (k s a c : bytes) : Prop :=
  (exists b, worded k b /\ s = a ++ b ++ c) /\ forall a' b' c', worded k b' -> s = a' ++ b' ++ c' -> (length a <= length a')%nat.
Definition mentioned (k s : bytes) : Prop := exists a b c, worded k b /\ s = a ++ b ++ c.
Definition blank (w : bytes) : Prop := Forall white w.
(** the text behind an equals sign after the first place of a word *)
Definition assigned (k s v : bytes) : Prop :=
  exists a w1 w2, first_at k s a (w1 ++ [61] ++ w2 ++ v) /\ blank w1 /\ blank w2 /\ match v with [] => True | c :: _ => ~ white c end.
(** no equals sign there *)
Definition bare (k s : bytes) : Prop :=
  exists a w c, first_at k s a (w ++ c) /\ blank w /\ match c with [] => True | x :: _ => ~ white x /\ x <> 61 end.

(** a decimal number *)
Definition digit (c : byte) : Prop := 48 <= c <= 57.
Definition value (s : bytes) : N := fold_left (fun a c => 10 * a + (c - 48)) s 0.
(** nothing that would continue a number: no letter, digit or point *)
Definition stops (r : bytes) : Prop := match r with [] => True | c :: _ => c < 46 \/ c = 47 \/ 58 <= c <= 64 \/ 123 <= c end.
(** [v] begins with the number n: decimal, or hexadecimal behind 0x; at most 2^53, which reals hold exactly *)
Inductive numeral : bytes -> N -> bytes -> Prop :=
| n_dec d r : d <> [] -> Forall digit d -> value d <= 2 ^ 53 -> stops r -> numeral (d ++ r) (value d) r
| n_hex x d ds r : x = 120 \/ x = 88 -> d <> [] -> Forall2 writes d ds -> (number 16 ds <= 2 ^ 53)%Z -> stops r ->
    numeral (48 :: x :: d ++ r) (Z.to_N (number 16 ds)) r.
(** what is known of strtod: numerals are read as they are, an empty text is 0 *)
Definition reads (real : bytes -> option N) : Prop := real [] = Some 0 /\ forall v n r, numeral v n r -> real v = Some n.

(** bytes that fill memory: the hexadecimal digits in pairs, with a zero in front of an odd number of digits; or a decimal number,
    least significant byte first, in the first of 1, 2, 4 and 8 bytes it fits in *)
Inductive pattern : bytes -> list N -> bytes -> Prop :=
| p_hex x d ds b r : x = 120 \/ x = 88 -> Forall2 writes d ds -> (length d <= 64)%nat -> match r with [] => True | c :: _ => forall k, ~ writes c k end ->
    length b = ((length d + 1) / 2)%nat -> Forall (fun y => y < 256) b -> number 256 (map Z.of_N b) = number 16 ds -> pattern (48 :: x :: d ++ r) b r
| p_dec d b r : d <> [] -> Forall digit d -> value d < 2 ^ 64 -> stops r ->
    (length b = 1%nat \/ (length b = 2%nat /\ 256 <= value d) \/ (length b = 4%nat /\ 256 ^ 2 <= value d) \/ (length b = 8%nat /\ 256 ^ 4 <= value d)) ->
    Forall (fun y => y < 256) b -> number 256 (map Z.of_N (rev b)) = Z.of_N (value d) -> pattern (d ++ r) b r.

(** ** A well written list of attributes *)
Inductive attribute := Limit (v : bytes) | Align (v : bytes) | Fill (v : bytes) | Noleak | Unmem.
Definition name (i : attribute) : bytes :=
  match i with Limit _ => str "limit" | Align _ => str "align" | Fill _ => str "fill" | Noleak => str "noleak" | Unmem => str "unmem" end.
(** its value; the values are numbers, so without the letters l and m *)
Definition amount (i : attribute) : option bytes := match i with Limit v | Align v | Fill v => Some v | _ => None end.
Definition numeric (v : bytes) : Prop := match v with [] => False | c :: _ => ~ white c end /\ forall c, In c v -> lower c <> 108 /\ lower c <> 109 /\ c <> 44.
Inductive spelt : attribute -> bytes -> Prop :=
| s_flag i b : amount i = None -> worded (name i) b -> spelt i b
| s_value i b w1 w2 v : amount i = Some v -> numeric v -> worded (name i) b -> blank w1 -> blank w2 -> spelt i (b ++ w1 ++ [61] ++ w2 ++ v).
(** attributes separated by commas, with blanks *)
Inductive listed : list attribute -> bytes -> Prop :=
| l_none w : blank w -> listed [] w
| l_last i w1 t w2 : blank w1 -> spelt i t -> blank w2 -> listed [i] (w1 ++ t ++ w2)
| l_more i w1 t w2 is s : blank w1 -> spelt i t -> blank w2 -> listed is s -> listed (i :: is) (w1 ++ t ++ w2 ++ [44] ++ s).
Definition sort (i : attribute) : N := match i with Limit _ => 0 | Align _ => 1 | Fill _ => 2 | Noleak => 3 | Unmem => 4 end.
