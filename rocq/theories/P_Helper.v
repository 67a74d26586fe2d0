(** C91: IsEven, IsOdd, IsDivable, IsInteger, IsNaN and File. *)
From Coq Require Import List ZArith NArith QArith Bool Lia.
From Verif Require Import Base NumModel HelperModel HelperSpec HelperProofs.
Import ListNotations.
Local Open Scope Z_scope.

Theorem C91_even : forall negative ta a, valid ta = true -> in_type ta a = true -> exists b, is_even negative ta a = Some b /\ verdict negative (Z.Even a) b.
Proof. exact even_ok. Qed.
Print Assumptions C91_even.
Example C91_even_example : is_even false (Signed 8) (-128) = Some true /\ is_even true (Unsigned 64) 18446744073709551615 = Some true.
Proof. split; [vm_compute; reflexivity|vm_compute; reflexivity]. Qed.
(** odd numbers, negative ones also (their remainder is -1) *)
Theorem C91_odd : forall negative ta a, valid ta = true -> in_type ta a = true -> exists b, is_odd negative ta a = Some b /\ verdict negative (Z.Odd a) b.
Proof. exact odd_ok. Qed.
Print Assumptions C91_odd.
Example C91_odd_example : is_odd false (Signed 32) (-7) = Some true /\ is_odd true (Signed 64) (-7) = Some false.
Proof. split; [vm_compute; reflexivity|vm_compute; reflexivity]. Qed.
(** divisibility, if no number is negative or both are of signed types *)
Theorem C91_divable : forall negative te e ta a, valid ta = true -> valid te = true -> in_type ta a = true -> in_type te e = true -> agreeing ta a te e -> e <> 0 -> ~ overflows ta a te e ->
  exists b, is_divable negative te e ta a = Some b /\ verdict negative (Z.divide e a) b.
Proof. exact divable_ok. Qed.
Print Assumptions C91_divable.
Example C91_divable_example : agreeing (Signed 64) (-21) (Signed 8) 7 /\ ~ overflows (Signed 64) (-21) (Signed 8) 7 /\ is_divable false (Signed 8) 7 (Signed 64) (-21) = Some true /\ is_divable false (Signed 8) 8 (Signed 64) (-21) = Some false.
Proof. split; [right; exists 64, 8; split; reflexivity|]. split; [intros [H _]; discriminate|]. split; [vm_compute; reflexivity|vm_compute; reflexivity]. Qed.
(** it is undefined for a divisor of zero, and for the smallest number and -1, and then only *)
Theorem C91_undefined : forall negative te e ta a, valid ta = true -> valid te = true -> in_type ta a = true -> in_type te e = true -> agreeing ta a te e ->
  (is_divable negative te e ta a = None <-> e = 0 \/ overflows ta a te e).
Proof. exact divable_undefined. Qed.
Print Assumptions C91_undefined.
Example C91_undefined_example : is_divable false (Signed 32) (-1) (Signed 32) (-2147483648) = None /\ is_divable false (Signed 32) (-1) (Signed 16) (-32768) = Some true.
Proof. split; [vm_compute; reflexivity|vm_compute; reflexivity]. Qed.
(** with an unsigned type and a negative number the verdict may be wrong either way *)
Theorem C91_mixed_refuted : exists te e ta a, in_type ta a = true /\ in_type te e = true /\ Z.divide e a /\ is_divable false te e ta a = Some false.
Proof. exists (Signed 32), (-3), (Unsigned 32), 6. split; [reflexivity|]. split; [reflexivity|]. split; [exists (-2); reflexivity|vm_compute; reflexivity]. Qed.
Print Assumptions C91_mixed_refuted.
Theorem C91_mixed_passes_refuted : exists te e ta a, in_type ta a = true /\ in_type te e = true /\ ~ Z.divide e a /\ is_divable false te e ta a = Some true.
Proof. exists (Unsigned 32), 5, (Signed 32), (-1). split; [reflexivity|]. split; [reflexivity|]. split; [intros [k H]; lia|vm_compute; reflexivity]. Qed.
Print Assumptions C91_mixed_passes_refuted.
(** IsInteger: the numbers without fraction, and the infinities *)
Theorem C91_integer : forall negative a, verdict negative (match a with Finite q => whole_number q | Infinite _ => True | NotANumber => False end) (is_integer negative a).
Proof. exact integer_ok. Qed.
Print Assumptions C91_integer.
Example C91_integer_example : is_integer false (Finite (- (14 # 2))) = true /\ is_integer false (Finite (- (15 # 2))) = false /\ is_integer true NotANumber = true.
Proof. split; [vm_compute; reflexivity|]. split; [vm_compute; reflexivity|vm_compute; reflexivity]. Qed.
Theorem C91_nan : forall negative a, verdict negative (a = NotANumber) (is_nan negative a).
Proof. exact nan_ok. Qed.
Print Assumptions C91_nan.
Example C91_nan_example : is_nan false NotANumber = true /\ is_nan false (Infinite false) = false /\ is_nan true (Finite 3) = true.
Proof. split; [vm_compute; reflexivity|]. split; [vm_compute; reflexivity|vm_compute; reflexivity]. Qed.
Theorem C91_infinite_refuted : exists a, (forall q, a <> Finite q) /\ is_integer false a = true.
Proof. exists (Infinite true). split; [discriminate|vm_compute; reflexivity]. Qed.
Print Assumptions C91_infinite_refuted.
(** File gives all bytes of a file whose end is where its bytes end *)
Theorem C91_file : forall limit f, f_end f = Z.of_nat (length (f_bytes f)) -> f_end f <= limit -> slurp limit (Some f) = Slurped (f_bytes f).
Proof. exact slurp_ok. Qed.
Print Assumptions C91_file.
Example C91_file_example : slurp 100 (Some (mkfile 4 [65; 0; 10; 255]%N)) = Slurped [65; 0; 10; 255]%N.
Proof. vm_compute. reflexivity. Qed.
(** a file that cannot be opened is like an empty one; so is one whose end is not told, as those of /proc *)
Theorem C91_missing_refuted : exists f, f_bytes f = [] /\ slurp 100 None = slurp 100 (Some f).
Proof. exists (mkfile 0 []). split; [reflexivity|vm_compute; reflexivity]. Qed.
Print Assumptions C91_missing_refuted.
Theorem C91_special_refuted : exists f, f_bytes f <> [] /\ slurp 100 (Some f) = Slurped [].
Proof. exists (mkfile 0 [65]%N). split; [discriminate|vm_compute; reflexivity]. Qed.
Print Assumptions C91_special_refuted.
