(** C64 assertions on integers, C65 tolerance of floating point equality, C66 Range. *)
From Coq Require Import List ZArith QArith Qabs Bool Lia.
From Verif Require Import NumModel NumSpec NumProofs.
Import ListNotations.
Local Open Scope Z_scope.

(** OK(l op r) is the comparison of the two integers, when both types are signed, or both unsigned, or no value is
    negative; != also needs l to fit the type of r, == and != need a bool to be compared with 0 or 1. *)
Theorem C64_operators : forall op tl l tr r, value tl l -> value tr r -> signed tl = signed tr \/ (0 <= l /\ 0 <= r) ->
  (op = OEq \/ op = ONe -> tl = Boolean -> in_type Boolean r = true) -> (op = ONe -> in_type tr l = true) -> (ok1 op tl l tr r = true <-> holds op l r).
Proof. exact operators. Qed.
Print Assumptions C64_operators.
Example C64_operators_case : value (Signed 16) (-300) /\ value (Signed 64) (-300) /\ signed (Signed 16) = signed (Signed 64) /\ in_type (Signed 64) (-300) = true /\
  map (fun op => ok1 op (Signed 16) (-300) (Signed 64) (-299)) [OEq; ONe; OGt; OLt; OGe; OLe] = [false; true; false; true; false; true].
Proof. repeat split; reflexivity. Qed.

(** > < >= <= also compare a signed with an unsigned type as integers, if the unsigned one has less than 32 bits or less bits than the
    signed one *)
Theorem C64_mixed : forall op tl l tr r, value tl l -> value tr r -> holdable tl tr -> holdable tr tl -> op <> OEq -> op <> ONe -> (ok1 op tl l tr r = true <-> holds op l r).
Proof. exact mixed_ok. Qed.
Print Assumptions C64_mixed.
Example C64_mixed_case : value (Signed 8) (-1) /\ value (Unsigned 16) 5 /\ holdable (Signed 8) (Unsigned 16) /\ holdable (Unsigned 16) (Signed 8) /\ ok1 OLt (Signed 8) (-1) (Unsigned 16) 5 = true /\ ok1 OGe (Signed 8) (-1) (Unsigned 16) 5 = false.
Proof. unfold holdable. repeat split; try reflexivity; intros H; discriminate H. Qed.

(** Eq(e) matches a exactly when they are equal or differ by 2^64. *)
Theorem C64_eq_exact : forall te e ta a, te <> Boolean -> value te e -> value ta a -> ok1 OEq te e ta a = true <-> e = a \/ e = a + 2 ^ 64 \/ a = e + 2 ^ 64.
Proof. exact eq_exact. Qed.
Print Assumptions C64_eq_exact.

(** OK(e, a) takes e in the type of a. *)
Theorem C64_ok2 : forall te e ta a, te <> Boolean -> value te e -> value ta a ->
  ok2 te e ta a = true <-> (if match ta with Boolean => true | _ => false end then (a = 1 <-> e <> 0) else exists k, a = e + k * 2 ^ bits ta).
Proof. exact ok2_meaning. Qed.
Print Assumptions C64_ok2.
(** If e fits the type of a this is equality. *)
Theorem C64_ok2_fits : forall te e ta a, value te e -> value ta a -> (te = Boolean -> in_type Boolean a = true) -> in_type ta e = true -> (ok2 te e ta a = true <-> e = a).
Proof. exact ok2_fits. Qed.
Print Assumptions C64_ok2_fits.
Example C64_ok2_case : value (Signed 32) 200 /\ value (Unsigned 8) 200 /\ in_type (Unsigned 8) 200 = true /\ ok2 (Signed 32) 200 (Unsigned 8) 200 = true /\ ok2 (Signed 32) 200 (Unsigned 8) 201 = false.
Proof. repeat split; reflexivity. Qed.
(** An expected bool asks whether the number is not 0. *)
Theorem C64_bool : forall e ta a, value Boolean e -> (ok2 Boolean e ta a = true <-> (e = 1 <-> a <> 0)) /\ (ok1 OEq Boolean e ta a = true <-> (e = 1 <-> a <> 0)).
Proof. exact ok2_bool. Qed.
Print Assumptions C64_bool.
Example C64_bool_case : value Boolean 1 /\ ok2 Boolean 1 (Signed 32) 7 = true /\ ok2 Boolean 0 (Signed 32) 7 = false.
Proof. repeat split; reflexivity. Qed.

(** OK(-1 == 18446744073709551615u) passes. *)
Theorem C64_wrap_refuted : exists tl l tr r, value tl l /\ value tr r /\ ok1 OEq tl l tr r = true /\ l <> r.
Proof. exists (Signed 64), (-1), (Unsigned 64), 18446744073709551615. repeat split; try reflexivity. discriminate. Qed.
Print Assumptions C64_wrap_refuted.
(** OK(300, (unsigned char)44) passes. *)
Theorem C64_narrow_refuted : exists te e ta a, value te e /\ value ta a /\ ok2 te e ta a = true /\ e <> a.
Proof. exists (Signed 32), 300, (Unsigned 8), 44. repeat split; try reflexivity. discriminate. Qed.
Print Assumptions C64_narrow_refuted.
(** OK(300 == (unsigned char)44) and OK(300 != (unsigned char)44) both fail. *)
Theorem C64_neither_refuted : exists tl l tr r, value tl l /\ value tr r /\ ok1 OEq tl l tr r = false /\ ok1 ONe tl l tr r = false.
Proof. exists (Signed 32), 300, (Unsigned 8), 44. repeat split; reflexivity. Qed.
Print Assumptions C64_neither_refuted.
(** With -1 and 4294967295u >= and <= pass, == fails. *)
Theorem C64_mixed_refuted : exists tl l tr r, value tl l /\ value tr r /\ ok1 OGe tl l tr r = true /\ ok1 OLe tl l tr r = true /\ ok1 OEq tl l tr r = false.
Proof. exists (Signed 32), (-1), (Unsigned 32), 4294967295. repeat split; reflexivity. Qed.
Print Assumptions C64_mixed_refuted.

(** Without a tolerance, numbers at most 0.00001 apart are equal. *)
Theorem C65_default : forall e a, eq_float e Default a = Some true <-> (dist a e <= 1 # 100000)%Q.
Proof. exact default_tol. Qed.
Print Assumptions C65_default.
(** Eq(e, t): at most |t| apart; t counts to fourteen decimals, which is exact for decimal fractions that short. *)
Theorem C65_absolute : forall e t a, (Qabs t < 174467)%Q -> exists b, eq_float e (Absolute t) a = Some b /\
  (b = true -> (dist a e <= Qabs t)%Q) /\ ((dist a e <= Qabs t - (1 # 100000000000000))%Q -> b = true) /\ (forall m, (Qabs t == m # 100000000000000)%Q -> ((dist a e <= Qabs t)%Q -> b = true)).
Proof. exact absolute_tol. Qed.
Print Assumptions C65_absolute.
(** Eq(e, t%): at most |t| percent of |e| apart. *)
Theorem C65_percent : forall e t a, (1 # 100000000000000 <= Qabs t)%Q -> (Qabs t < 10000)%Q -> exists b, eq_float e (Percent t) a = Some b /\
  (b = true -> (dist a e <= Qabs e * (Qabs t / 100))%Q) /\ ((dist a e <= Qabs e * ((Qabs t - (1 # 100000000000000)) / 100))%Q -> b = true).
Proof. exact percent_tol. Qed.
Print Assumptions C65_percent.
Example C65_case : eq_float (200 # 1) (Absolute (1 # 2)) (401 # 2) = Some true /\ eq_float (200 # 1) (Absolute (1 # 2)) (402 # 2) = Some false /\
  eq_float (200 # 1) (Percent (5 # 1)) (210 # 1) = Some true /\ eq_float (200 # 1) (Percent (5 # 1)) (211 # 1) = Some false /\ eq_float (200 # 1) (Absolute 0) (20000001 # 100000) = Some false.
Proof. repeat split; vm_compute; reflexivity. Qed.
(** A tolerance above 174467 turns into a percentage: Eq(0, 180000) does not match 1. *)
Theorem C65_large_refuted : exists e t a, eq_float e (Absolute t) a = Some false /\ (dist a e <= Qabs t)%Q.
Proof. exists 0%Q, 180000%Q, 1%Q. split; [vm_compute; reflexivity|]. discriminate. Qed.
Print Assumptions C65_large_refuted.
(** 0% and 10000% mean the default tolerance. *)
Theorem C65_percent_refuted : (exists e a, eq_float e (Percent 0) a = Some true /\ ~ (dist a e <= Qabs e * (0 / 100))%Q) /\
  (exists e a, eq_float e (Percent 10000) a = Some false /\ (dist a e <= Qabs e * (10000 / 100))%Q).
Proof.
  split; [exists 1%Q, (100001 # 100000)%Q; split; [vm_compute; reflexivity|intro H; apply H; vm_compute; reflexivity]|exists 1%Q, 2%Q; split; [vm_compute; reflexivity|discriminate]].
Qed.
Print Assumptions C65_percent_refuted.

(** Range(end), Range(start, end), Range(start, end, step) with a positive step match the numbers within 0.00001 of start,
    start+step, ... below end (0 and 1 when left out), and the search ends. *)
Theorem C66_range : forall start end_ step a, (forall q, end_ = Some q -> ~ (q == - (15048889911 # 100000000000))%Q) -> (forall q, step = Some q -> (0 < q)%Q) ->
  exists b fuel, (forall more, range_match (fuel + more) start (arg end_) (arg step) a = Some b) /\
    (b = true <-> in_range (match end_ with Some _ => start | None => 0 end) (match end_ with Some q => q | None => start end) (match step with Some q => q | None => 1 end) a).
Proof. exact range_ok. Qed.
Print Assumptions C66_range.
Example C66_case : range_match 20 1 (arg (Some 2%Q)) (arg (Some (1 # 4))) (3 # 2) = Some true /\ range_match 20 1 (arg (Some 2%Q)) (arg (Some (1 # 4))) 2 = Some false /\
  range_match 20 5 (arg None) (arg None) 4 = Some true.
Proof. repeat split; vm_compute; reflexivity. Qed.
(** A step that is not positive never ends unless a match is found; an empty interval matches nothing, so that unlike in
    Python a falling range is empty. *)
Theorem C66_no_end : forall start end_ step a, ~ (end_ == - (15048889911 # 100000000000))%Q -> ~ (step == - (15048889911 # 100000000000))%Q -> (step <= 0)%Q -> (start < end_)%Q -> ~ in_range start end_ step a -> forall fuel, range_match fuel start end_ step a = None.
Proof. exact range_diverges. Qed.
Print Assumptions C66_no_end.
Theorem C66_empty : forall fuel start end_ step a, ~ (end_ == - (15048889911 # 100000000000))%Q -> (end_ <= start)%Q -> range_match (Datatypes.S fuel) start end_ step a = Some false.
Proof. exact range_empty. Qed.
Print Assumptions C66_empty.
Example C66_no_end_case : ~ in_range 0 1 0 5 /\ range_match 9 10 0 (-(1)) 5 = Some false /\ range_match 1000 0 1 0 5 = None.
Proof.
  split; [|split; vm_compute; reflexivity]. intros (k & K & L & D). revert D. assert (E : (0 + inject_Z k * 0 == 0)%Q) by ring. unfold dist. rewrite E. intro D. apply D. vm_compute. reflexivity.
Qed.
(** The value that stands for an omitted argument is not a possible end: Range(-1, -0.15048889911) searches 0 .. -1. *)
Theorem C66_sentinel_refuted : exists start end_ a, in_range start end_ 1 a /\ forall fuel, range_match (Datatypes.S fuel) start end_ 1 a = Some false.
Proof.
  exists (-(1))%Q, (- (15048889911 # 100000000000))%Q, (-(1))%Q. split; [exists 0; split; [lia|]; split; vm_compute; [reflexivity|discriminate]|]. intro fuel. unfold range_match. cbn. reflexivity.
Qed.
Print Assumptions C66_sentinel_refuted.
