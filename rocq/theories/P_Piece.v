(** Final theorems about one checked allocation (properties C11, C12). *)
From Coq Require Import List NArith Bool Lia.
From Verif Require Import PieceModel PieceSpec PieceProofs.
Import ListNotations.
Local Open Scope N_scope.

(** C11: the user range lies in the accessible pages, the guard page starts at a page boundary behind it,
    and the pointer is congruent to the requested alignment modulo its power-of-two ceiling A (at least 8). *)
Theorem C11_placement : forall ps base size al, pow2 ps -> base mod ps = 0 ->
  size < 2 ^ 52 -> al < 2 ^ 32 -> guard ps base size al + al < 2 ^ 64 ->
  let p := user_ptr ps base size al in
  let g := guard ps base size al in
  exists A, pow2_ceiling al A /\
    base <= p /\ p + size <= g /\ g mod ps = 0 /\
    g - (p + size) < 2 * A - al /\
    (A <= ps -> p mod A = al mod A) /\
    g - base < size + 2 * A + ps.
Proof. exact placement. Qed.
Print Assumptions C11_placement.
Example C11_placement_ex : user_ptr 4096 65536 1 3 = 69619 /\ guard 4096 65536 1 3 = 69632 /\ pow2 4096 /\ pow2_ceiling 3 8
  /\ user_ptr 4096 65536 4090 16 = 69632.
Proof.
  repeat split; try reflexivity; try lia; try (exists 12; reflexivity); try (exists 3; reflexivity).
Qed.

(** C11: for a power-of-two alignment from 8 up to the page size the pointer is aligned and is the highest aligned
    position that keeps the range before the guard page *)
Theorem C11_power_of_two_alignment : forall ps base size al, pow2 ps -> base mod ps = 0 ->
  size < 2 ^ 52 -> pow2 al -> 8 <= al -> al <= ps -> al < 2 ^ 32 -> guard ps base size al + al < 2 ^ 64 ->
  let p := user_ptr ps base size al in
  let g := guard ps base size al in
  p mod al = 0 /\ p + size <= g /\ forall p', p' mod al = 0 -> p' + size <= g -> p' <= p.
Proof. exact placement_pow2. Qed.
Print Assumptions C11_power_of_two_alignment.
Example C11_power_of_two_alignment_ex :
  let p := user_ptr 4096 65536 100 64 in p = 69504 /\ p mod 64 = 0 /\ guard 4096 65536 100 64 - (p + 100) = 28.
Proof. vm_compute. auto. Qed.

(** alignments above the page size are not honoured *)
Theorem C11_large_alignment_refuted : exists ps base size al, pow2 ps /\ base mod ps = 0 /\ pow2 al /\
  user_ptr ps base size al mod al <> 0.
Proof.
  exists 4096, 4096, 1, 8192. repeat split; try (exists 12; reflexivity); try (exists 13; reflexivity).
  vm_compute. discriminate.
Qed.
Print Assumptions C11_large_alignment_refuted.

(** an alignment that is not a power of two is not honoured either, and wastes slack *)
Theorem C11_odd_alignment_refuted : exists ps base size al, pow2 ps /\ base mod ps = 0 /\
  user_ptr ps base size al mod al <> 0 /\ al <= guard ps base size al - (user_ptr ps base size al + size).
Proof.
  exists 4096, 4096, 1, 5. repeat split; try (exists 12; reflexivity); vm_compute; discriminate.
Qed.
Print Assumptions C11_odd_alignment_refuted.

(** C12: a report exactly when some byte of the slack differs from the canary *)
Theorem C12_report_iff_slack_modified : forall m flower base ptr size grd, base <= ptr -> ptr + size <= grd ->
  (check_snowfield m flower base ptr size grd <> None <->
   exists x, within x base grd /\ ~ within x ptr (ptr + size) /\ m x <> flower).
Proof. exact snowfield_exact. Qed.
Print Assumptions C12_report_iff_slack_modified.

Definition ex_mem : memory := mark_snowfield (fun _ => 0) 4096 8184 3 8192 77.
Definition ex_hit : memory := fun x => if x =? 8189 then 65 else ex_mem x.
Example C12_report_iff_slack_modified_ex :
  check_snowfield ex_mem 77 4096 8184 3 8192 = None /\
  check_snowfield ex_hit 77 4096 8184 3 8192 = Some (8189, [65]) /\
  check_snowfield (fun x => if x =? 4100 then 65 else ex_mem x) 77 4096 8184 3 8192 = Some (4100, [65]).
Proof. vm_compute. auto. Qed.

(** the report names the first modified byte (after the range if there is one, else before it) and shows the bytes there *)
Theorem C12_report_is_first_modified_byte : forall m flower base ptr size grd a spot, base <= ptr -> ptr + size <= grd ->
  check_snowfield m flower base ptr size grd = Some (a, spot) ->
  within a base grd /\ ~ within a ptr (ptr + size) /\ m a <> flower /\
  (forall x, ptr + size <= x -> x < grd -> m x <> flower -> ptr + size <= a /\ a <= x) /\
  (a < ptr -> forall x, base <= x -> x < a -> m x = flower) /\
  (1 <= length spot <= 8)%nat /\
  (forall i, (i < length spot)%nat -> nth i spot 0 = m (a + N.of_nat i)).
Proof. exact snowfield_report. Qed.
Print Assumptions C12_report_is_first_modified_byte.
Example C12_report_is_first_modified_byte_ex :
  check_snowfield (fun x => if (x =? 8188) || (x =? 8190) then 65 else ex_mem x) 77 4096 8184 3 8192 = Some (8188, [65; 77; 65]).
Proof. vm_compute. auto. Qed.

(** writes inside the user range only are never reported *)
Theorem C12_no_false_alarm : forall m m' flower base ptr size grd, base <= ptr -> ptr + size <= grd ->
  (forall x, ~ within x ptr (ptr + size) -> m' x = mark_snowfield m base ptr size grd flower x) ->
  check_snowfield m' flower base ptr size grd = None.
Proof. exact snowfield_no_false_alarm. Qed.
Print Assumptions C12_no_false_alarm.
Example C12_no_false_alarm_ex :
  check_snowfield (fun x => if x =? 8185 then 65 else ex_mem x) 77 4096 8184 3 8192 = None.
Proof. vm_compute. auto. Qed.

(** a byte overwritten with the canary value itself goes unnoticed *)
Theorem C12_same_value_write_refuted : exists x, within x 4096 8192 /\ ~ within x 8184 8187 /\
  check_snowfield (fun y => if y =? x then 77 else ex_mem y) 77 4096 8184 3 8192 = None.
Proof.
  exists 8190. unfold within. split; [lia|]. split; [lia|]. vm_compute. reflexivity.
Qed.
Print Assumptions C12_same_value_write_refuted.
