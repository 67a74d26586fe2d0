(** C71: the dump of a failed memory comparison. *)
From Coq Require Import List NArith Bool Arith Lia.
From Verif Require Import Base LineModel LineSpec DumpModel DumpSpec DumpProofs DumpProofs2 DumpProofs3 DumpProofs4.
Import ListNotations.
Local Open Scope N_scope.

(** n numbers of 1, 2, 4 or 8 bytes, the latter below 2^32: two columns under their titles; row k is labelled with the index of its
    first number and shows every number of the row, expected ones on the left and actual ones on the right *)
Theorem C71_numbers : forall W size n e a sw, In size [1; 2; 4; 8]%nat -> length e = (n * size)%nat -> length a = (n * size)%nat -> Forall (fun b => b < 256) e -> Forall (fun b => b < 256) a ->
  (size = 8%nat -> Forall (fun v => v < 2 ^ 32) (elements 8 e ++ elements 8 a)) ->
  let per := per_row W size in let R := rows_for per n in
  digits_of (N.of_nat per * N.of_nat R) sw -> (sw <= 8)%nat -> (sw + 10 <= W)%nat -> N.of_nat W < 2 ^ 64 ->
  exists d, memcmp_dump W (8 * size) n e a = Some d /\ two_columns W sw (N.of_nat per) R (str "expect") (str "actual") (number_texts size per e a) d.
Proof. exact dump_numbers. Qed.
Print Assumptions C71_numbers.
(** n bits: 32 a row in eights *)
Theorem C71_bits : forall W n e a sw, length e = ((n + 7) / 8)%nat -> length a = ((n + 7) / 8)%nat ->
  let R := rows_for 32 n in digits_of (32 * N.of_nat R) sw -> (sw <= 8)%nat -> (sw + 10 <= W)%nat -> N.of_nat W < 2 ^ 64 ->
  exists d, memcmp_dump W 1 n e a = Some d /\ two_columns W sw 32 R (str "expect") (str "actual") (bit_texts n e a) d.
Proof. exact dump_bits. Qed.
Print Assumptions C71_bits.
(** where both columns have room for the longest row, every row is one line *)
Theorem C71_numbers_unbroken : forall W size n e a sw, In size [1; 2; 4; 8]%nat -> length e = (n * size)%nat -> length a = (n * size)%nat -> Forall (fun b => b < 256) e -> Forall (fun b => b < 256) a ->
  (size = 8%nat -> Forall (fun v => v < 2 ^ 32) (elements 8 e ++ elements 8 a)) ->
  let per := per_row W size in let R := rows_for per n in
  digits_of (N.of_nat per * N.of_nat R) sw -> (sw <= 8)%nat -> (2 * Nat.max 6 (number_row (2 * size) (Nat.min per n)) + sw + 6 <= W)%nat -> N.of_nat W < 2 ^ 64 ->
  exists d, memcmp_dump W (8 * size) n e a = Some d /\ one_line_each sw (N.of_nat per) R (number_texts size per e a) d.
Proof. exact dump_numbers_fits. Qed.
Print Assumptions C71_numbers_unbroken.
Theorem C71_bits_unbroken : forall W n e a sw, length e = ((n + 7) / 8)%nat -> length a = ((n + 7) / 8)%nat ->
  let R := rows_for 32 n in digits_of (32 * N.of_nat R) sw -> (sw <= 8)%nat -> (2 * Nat.max 6 (Nat.min 32 n + 3) + sw + 6 <= W)%nat -> N.of_nat W < 2 ^ 64 ->
  exists d, memcmp_dump W 1 n e a = Some d /\ one_line_each sw 32 R (bit_texts n e a) d.
Proof. exact dump_bits_fits. Qed.
Print Assumptions C71_bits_unbroken.
(** ten numbers of two bytes in 86 columns: a row of eight and a row of two; in 85 columns the first row is broken *)
Example C71_unbroken_example : number_row 4 8 = 39%nat /\ digits_of (8 * N.of_nat (rows_for 8 10)) 2 /\ (2 * Nat.max 6 (number_row 4 8) + 2 + 6 = 86)%nat /\
  option_map (map spoken) (memcmp_dump 86 16 10 (repeat 1 20) (repeat 2 20)) =
  Some [repeat 32 4 ++ repeat 32 16 ++ str "expect" ++ repeat 32 17 ++ str "   " ++ repeat 32 16 ++ str "actual" ++ repeat 32 17;
        str " 0" ++ [0xe2; 0x94; 0x8a] ++ str " 0101 0101 0101 0101 0101 0101 0101 0101 " ++ [0xe2; 0x94; 0x82] ++ str " 0202 0202 0202 0202 0202 0202 0202 0202 ";
        str " 8" ++ [0xe2; 0x94; 0x8a] ++ str " 0101 0101" ++ repeat 32 31 ++ [0xe2; 0x94; 0x82] ++ str " 0202 0202" ++ repeat 32 31] /\
  option_map (@length line) (memcmp_dump 85 16 10 (repeat 1 20) (repeat 2 20)) = Some 4%nat.
Proof. split; [reflexivity|]. split; [split; [vm_compute; reflexivity|right; split; [lia|vm_compute; discriminate]]|]. split; [reflexivity|]. split; vm_compute; reflexivity. Qed.
(** in the lines the columns are made of, a number is coloured exactly if the other side has another one: green if expected, red if actual *)
Theorem C71_colours : forall size per e a n, (1 <= size)%nat -> (0 < per)%nat -> length e = (n * size)%nat -> length a = (n * size)%nat -> Forall (fun b => b < 256) e -> Forall (fun b => b < 256) a ->
  (forall m, element size e m < 2 ^ 32) -> (forall m, element size a m < 2 ^ 32) ->
  let ls := print_ints size (per * size) e a in length (fst ls) = rows_for per n /\ length (snd ls) = rows_for per n /\
  forall k, (k < rows_for per n)%nat -> exists ps qs,
    Numbers (2 * size) 0 (row_of per k (elements size e)) (row_of per k (elements size a)) ps /\ painted (str "green") (nth k (fst ls) []) ps /\
    Numbers (2 * size) 0 (row_of per k (elements size a)) (row_of per k (elements size e)) qs /\ painted (str "bold,red") (nth k (snd ls) []) qs.
Proof. exact ints_ok. Qed.
Print Assumptions C71_colours.
(** larger numbers: only the lower 32 bits are printed, but the colour tells whether the whole numbers differ *)
Theorem C71_wide_colours : forall size per e a n, (1 <= size)%nat -> (0 < per)%nat -> length e = (n * size)%nat -> length a = (n * size)%nat -> Forall (fun b => b < 256) e -> Forall (fun b => b < 256) a ->
  let ls := print_ints size (per * size) e a in length (fst ls) = rows_for per n /\ length (snd ls) = rows_for per n /\
  forall k, (k < rows_for per n)%nat -> exists ps qs,
    Halves (2 * size) 0 (row_of per k (elements size e)) (row_of per k (elements size a)) ps /\ painted (str "green") (nth k (fst ls) []) ps /\
    Halves (2 * size) 0 (row_of per k (elements size a)) (row_of per k (elements size e)) qs /\ painted (str "bold,red") (nth k (snd ls) []) qs.
Proof. exact halves_ok. Qed.
Print Assumptions C71_wide_colours.
Example C71_wide_colours_example :
  fst (print_ints 8 16 [1; 0; 0; 0; 2; 0; 0; 0] [1; 0; 0; 0; 3; 0; 0; 0]) = [[[27; 123] ++ str "green}"; str "0000000000000001"; [27; 123] ++ str "reset}"]] /\
  fst (print_ints 8 16 [1; 0; 0; 0; 2; 0; 0; 0] [1; 0; 0; 0; 2; 0; 0; 0]) = [[str "0000000000000001"]].
Proof. vm_compute. split; reflexivity. Qed.
Theorem C71_bit_colours : forall n e a, length e = ((n + 7) / 8)%nat ->
  let ls := print_bits n 4 e a in length (fst ls) = rows_for 32 n /\ length (snd ls) = rows_for 32 n /\
  forall k, (k < rows_for 32 n)%nat -> let b := row_of 32 k (bits_of n e) in let c := row_of 32 k (bits_of n a) in
    painted (str "green") (nth k (fst ls) []) (bit_pieces 0 b c ++ [missing_bytes (length b)]) /\ painted (str "bold,red") (nth k (snd ls) []) (bit_pieces 0 c b ++ [missing_bytes (length c)]).
Proof. exact bits_ok. Qed.
Print Assumptions C71_bit_colours.
(** rows that look alike hold the same numbers *)
Theorem C71_distinct : forall d vs ws ps m, Numbers d m vs ws ps -> forall vs2 ws2 qs, Numbers d m vs2 ws2 qs -> length vs = length vs2 -> told ps = told qs -> vs = vs2.
Proof. exact numbers_injective. Qed.
Print Assumptions C71_distinct.

Definition C71_e : bytes := [0; 1; 2; 3; 4; 5; 6; 7; 8; 255].
Definition C71_a : bytes := [0; 1; 18; 3; 4; 5; 6; 7; 8; 254].
Example C71_example : (length C71_e = 5 * 2)%nat /\ (length C71_a = 5 * 2)%nat /\ Forall (fun b => b < 256) C71_e /\ Forall (fun b => b < 256) C71_a /\ digits_of (8 * N.of_nat (rows_for 8 5)) 1 /\
  option_map (map spoken) (memcmp_dump 60 16 5 C71_e C71_a) =
  Some [str "            expect                     actual         "; str "0" ++ [0xe2; 0x94; 0x8a] ++ str " 0100 0302 0504 0706 FF08 " ++ [0xe2; 0x94; 0x82] ++ str " 0100 0312 0504 0706 FE08 "] /\
  nth 0 (fst (print_ints 2 16 C71_e C71_a)) [] = [str "0100"; 27 :: str "{green}"; str " 0302"; 27 :: str "{reset}"; str " 0504"; str " 0706"; 27 :: str "{green}"; str " FF08"; 27 :: str "{reset}"] /\
  option_map (map spoken) (memcmp_dump 80 1 11 [0xa5; 0xe0] [0xa4; 0xe0]) =
  Some [str "        expect           actual    "; str " 0" ++ [0xe2; 0x94; 0x8a] ++ str " 10100101 111   " ++ [0xe2; 0x94; 0x82] ++ str " 10100100 111   "].
Proof.
  split; [reflexivity|]. split; [reflexivity|]. split; [repeat constructor|]. split; [repeat constructor|]. split; [split; [vm_compute; reflexivity|left; reflexivity]|].
  split; [vm_compute; reflexivity|]. split; vm_compute; reflexivity.
Qed.

(** numbers of 8 bytes that differ above their lower 32 bits are shown alike *)
Theorem C71_uint64_refuted : exists e a, elements 8 e = [2 ^ 32 + 7] /\ elements 8 a = [2 ^ 33 + 7] /\
  let ls := print_ints 8 16 e a in map spoken (fst ls) = [str "0000000000000007"] /\ map spoken (snd ls) = [str "0000000000000007"].
Proof. exists [7; 0; 0; 0; 1; 0; 0; 0], [7; 0; 0; 0; 2; 0; 0; 0]. split; [vm_compute; reflexivity|]. split; [vm_compute; reflexivity|]. split; vm_compute; reflexivity. Qed.
Print Assumptions C71_uint64_refuted.
(** numbers of other widths are not shown at all *)
Theorem C71_widths_refuted : exists W width n e a, e <> a /\ length e = 3%nat /\ (n * width = 24)%nat /\ exists t, memcmp_dump W width n e a = Some [t] /\ spoken t = str "expect   actual".
Proof. exists 80%nat, 24%nat, 1%nat, [1; 2; 3], [1; 2; 4]. split; [discriminate|]. split; [reflexivity|]. split; [reflexivity|]. eexists. split; [vm_compute; reflexivity|vm_compute; reflexivity]. Qed.
Print Assumptions C71_widths_refuted.
