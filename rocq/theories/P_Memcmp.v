(** C34, C35, C60: Me(...). *)
From Coq Require Import List NArith ZArith Bool Arith Lia.
From Verif Require Import Base FilterModel MemcmpModel MemcmpSpec MemcmpProofs MemcmpProofs2.
Import ListNotations.
Local Open Scope N_scope.

(** C34: Me(buffer, size, width): size defaults to the array's dimension, width to the element's; the comparison is defined
    (nothing outside the compared bits' bytes is read) and a match exactly when all these bits agree *)
Theorem C34_buffer : forall neg b a pointee dimension size width,
  let bits := (if size =? 0 then dimension else size) * (if width =? 0 then pointee * 8 else width) in
  bits <> 0 -> bits < 18446744073709551616 -> bits <= 8 * N.of_nat (length b) -> bits <= 8 * N.of_nat (length a) ->
  me neg (Buffer (map Some b) pointee) dimension size width (map Some a) <> None /\
  (me neg (Buffer (map Some b) pointee) dimension size width (map Some a) = Some Match <-> if neg then ~ same_bits b a (N.to_nat bits) else same_bits b a (N.to_nat bits)).
Proof. exact buffer_spec. Qed.
Print Assumptions C34_buffer.
Example C34_buffer_example : me false (Buffer (map Some [0x12; 0x34]) 1) 2 3 4 (map Some [0x12; 0x35]) = Some Match /\ me false (Buffer (map Some [0x12; 0x34]) 1) 2 4 4 (map Some [0x12; 0x35]) = Some Mismatch.
Proof. split; vm_compute; reflexivity. Qed.
(** a literal with a size or width given: its characters and the NUL are the buffer *)
Theorem C34_literal : forall neg s a dimension size width,
  let bits := (if size =? 0 then dimension else size) * (if width =? 0 then 1 * 8 else width) in
  (size <> 0 \/ width <> 0) -> bits <> 0 -> bits < 18446744073709551616 -> bits <= 8 * N.of_nat (length s + 1) -> bits <= 8 * N.of_nat (length a) ->
  me neg (Literal s) dimension size width (map Some a) <> None /\
  (me neg (Literal s) dimension size width (map Some a) = Some Match <-> if neg then ~ same_bits (s ++ [0]) a (N.to_nat bits) else same_bits (s ++ [0]) a (N.to_nat bits)).
Proof. exact literal_sized. Qed.
Print Assumptions C34_literal.
Example C34_literal_example : me true (Literal (str "10")) 0 2 8 (map Some (str "11")) = Some Match.
Proof. vm_compute. reflexivity. Qed.
(** agreement of all bits of k whole bytes is equality of the bytes *)
Theorem C34_bytes : forall p a k, length p = k -> (k <= length a)%nat -> Forall (fun x => x < 256) p -> Forall (fun x => x < 256) a -> (same_bits p a (8 * k) <-> firstn k a = p).
Proof. intros p a k L LA P A. rewrite (same_bytes p a k) by auto. unfold begins. rewrite L. reflexivity. Qed.
Print Assumptions C34_bytes.
Example C34_bytes_example : same_bits [1; 2] [1; 2; 3] (8 * 2).
Proof. apply C34_bytes; cbn; auto; repeat constructor. Qed.
(** neither size nor dimension: fails, negated or not *)
Theorem C34_no_size_refuted : exists b a, me false (Buffer b 1) 0 0 0 a = Some NoSize /\ me true (Buffer b 1) 0 0 0 a = Some NoSize.
Proof. exists [Some 1], [Some 2]. split; reflexivity. Qed.
Print Assumptions C34_no_size_refuted.
(** size * width beyond size_t: different bytes match *)
Theorem C34_overflow_refuted : exists b a size width, size * width = 18446744073709551616 /\ me false (Buffer b 1) 0 size width a = Some Match /\ get b 0 <> get a 0.
Proof. exists [Some 1], [Some 2], 2305843009213693952, 8. split; [reflexivity|]. split; [vm_compute; reflexivity|discriminate]. Qed.
Print Assumptions C34_overflow_refuted.
(** a literal without size: strcmp reads the actual buffer beyond the bytes needed *)
Theorem C34_text_read_refuted : exists s a, me false (Literal s) 0 0 0 a = None /\ hex2bytes s = Some (length a, map Some [0x41; 0x42] ++ [None; None]).
Proof. exists (str "4142"), (map Some (str "41")). split; vm_compute; reflexivity. Qed.
Print Assumptions C34_text_read_refuted.

(** C35: a literal decodes to the bytes of the number its leading hexadecimal digits write, an odd count with a leading zero *)
Theorem C35_decode : forall s ds, leading s ds -> exists m b, hex2bytes s = Some (length b, m) /\ agrees m b (length b) /\ length b = ((length ds + 1) / 2)%nat /\ Forall (fun x => x < 256) b /\
  number 256 (map Z.of_N b) = number 16 ds.
Proof. exact hex_leading. Qed.
Print Assumptions C35_decode.
(** so Me("digits") matches exactly when the actual buffer begins with these bytes, or with the text itself *)
Theorem C35_literal : forall neg s ds a dimension, hexlike s -> ~ binlike s -> leading s ds -> ds <> [] -> N.of_nat (length s) < 2 ^ 60 -> (length s < length a)%nat -> Forall (fun x => x < 256) a ->
  exists b, length b = ((length ds + 1) / 2)%nat /\ Forall (fun x => x < 256) b /\ number 256 (map Z.of_N b) = number 16 ds /\
    decides (me neg (Literal s) dimension 0 0 (map Some a)) neg (begins (s ++ [0]) a \/ begins b a).
Proof. exact hex_literal. Qed.
Print Assumptions C35_literal.
Example C35_example : hex2bytes (str "1aB") = Some (2%nat, [Some 0x01; Some 0xab; None]) /\ me false (Literal (str "1aB")) 0 0 0 (map Some [0x01; 0xab; 7; 7]) = Some Match.
Proof. split; vm_compute; reflexivity. Qed.
Example C35_example_hyp : leading (str "1aB") [1; 10; 11]%Z /\ hexlike (str "1aB") /\ ~ binlike (str "1aB").
Proof.
  assert (W : Forall2 writes (str "1aB") [1; 10; 11]%Z).
  { repeat constructor; [exists 1%nat|exists 10%nat|exists 11%nat]; split; try reflexivity; [left|left|right]; reflexivity. }
  split; [exists (str "1aB"), []; auto|]. split.
  - right. inversion W as [|? ? ? ? W1 T1]; subst. inversion T1 as [|? ? ? ? W2 T2]; subst. inversion T2 as [|? ? ? ? W3 T3]; subst. constructor; [left; eauto|]. constructor; [left; eauto|]. constructor; [left; eauto|]. constructor.
  - intros H. inversion H as [|? ? _ T]; subst. inversion T as [|? ? A _]; subst. cbv in A. intuition discriminate.
Qed.
(** 0x prefix and blanks: accepted as hexadecimal, but decoding stops there *)
Theorem C35_prefix_blank_refuted : (hexlike (str "0x12") /\ me false (Literal (str "0x12")) 0 0 0 (map Some [0x12; 0; 0; 0; 0]) = Some Mismatch /\ me false (Literal (str "0x12")) 0 0 0 (map Some [0; 0x99; 0; 0; 0]) = Some Match) /\
  (is_hex_string (str "12 34") = true /\ me false (Literal (str "12 34")) 0 0 0 (map Some [0x12; 0x99; 0; 0; 0; 0]) = Some Match).
Proof. split; [split; [left; exists (str "12"); auto|]|]; repeat split; vm_compute; reflexivity. Qed.
Print Assumptions C35_prefix_blank_refuted.
(** every literal with the prefix 0x or 0X is compared as the single byte 0 (or as text) *)
Theorem C35_prefix_refuted : forall neg s r a dimension, s = str "0x" ++ r \/ s = str "0X" ++ r -> N.of_nat (length s) < 2 ^ 60 -> (length s < length a)%nat -> Forall (fun x => x < 256) a ->
  decides (me neg (Literal s) dimension 0 0 (map Some a)) neg (begins (s ++ [0]) a \/ begins [0] a).
Proof. exact hex_prefix. Qed.
Print Assumptions C35_prefix_refuted.
Example C35_prefix_example : me false (Literal (str "0Xff")) 0 0 0 (map Some [0; 1; 2; 3; 4]) = Some Match /\ me false (Literal (str "0Xff")) 0 0 0 (map Some [255; 1; 2; 3; 4]) = Some Mismatch.
Proof. split; vm_compute; reflexivity. Qed.

(** C60: a literal of 0, 1 and blanks denotes bits *)
Theorem C60_binary : forall neg s a dimension, bin_digits s -> denoted s <> [] -> N.of_nat (length s) < 2 ^ 60 -> (length s < length a)%nat ->
  decides (me neg (Literal s) dimension 0 0 (map Some a)) neg (begins (s ++ [0]) a \/ forall n, (n < length (denoted s))%nat -> bit a n = nth n (denoted s) false).
Proof. exact bin_literal. Qed.
Print Assumptions C60_binary.
Example C60_binary_example : me false (Literal (str "1010 11")) 0 0 0 (map Some [0xaf; 0; 0; 0; 0; 0; 0; 0]) = Some Match /\ me false (Literal (str "1010 11")) 0 0 0 (map Some [0xab; 0; 0; 0; 0; 0; 0; 0]) = Some Mismatch.
Proof. split; vm_compute; reflexivity. Qed.
(** any other text is compared as text, up to its length *)
Theorem C60_text : forall neg s a dimension, ~ binlike s -> ~ hexlike s -> N.of_nat (length s) < 2 ^ 60 -> (length s < length a)%nat -> Forall (fun x => x < 256) s -> Forall (fun x => x < 256) a ->
  decides (me neg (Literal s) dimension 0 0 (map Some a)) neg (begins s a).
Proof. exact text_literal. Qed.
Print Assumptions C60_text.
Example C60_text_hyp : ~ binlike (str "h2unit") /\ ~ hexlike (str "h2unit").
Proof.
  split; [intros H; inversion H as [|? ? A _]; subst; cbv in A; intuition discriminate|]. intros H. apply hex_class in H. discriminate.
Qed.
Example C60_text_example : me false (Literal (str "h2unit")) 0 0 0 (map Some (str "h2unit.h")) = Some Match.
Proof. vm_compute. reflexivity. Qed.
(** other white space counts as a 0 bit *)
Theorem C60_newline_refuted : exists s, binlike s /\ bin_to_bits s = Some (3%nat, [Some 0xa0; Some 0; Some 0]) /\ filter (fun c => (c =? 48) || (c =? 49)) s = str "11".
Proof. exists [49; 10; 49]. split; [constructor; [auto|]; constructor; [right; right; cbv; auto|]; constructor; [auto|constructor]|]. split; vm_compute; reflexivity. Qed.
Print Assumptions C60_newline_refuted.
