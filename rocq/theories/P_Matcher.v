(** C29, C30, C31: matcher expressions. *)
From Coq Require Import List ZArith NArith Bool Sorted Permutation Lia.
From Verif Require Import FailModel MatcherModel MatcherSpec MatcherProofs MatcherProofs2 MatcherProofs3.
Import ListNotations.
Local Open Scope Z_scope.

(** test matchers: equal to n, greater than n, anything *)
Definition eqn (n : Z) : matcher := MBase (fun _ _ v => match v with VNum x => x =? n | _ => false end).
Definition gtn (n : Z) : matcher := MBase (fun _ _ v => match v with VNum x => n <? x | _ => false end).
Definition anyv : matcher := MBase (fun _ _ _ => true).
(** the default template range *)
Definition whole : range := mkrange 0 range_max.

(** C29: an expression of logical combinators matches exactly when its boolean meaning, negated in a negating context, is true *)
Theorem C29_truth : forall m c v, logical m -> isnull (matches m c v) = xorb (c_neg c) (truth m (c_ci c) (c_sq c) v).
Proof. exact truth_verdict. Qed.
Print Assumptions C29_truth.
Example C29_truth_example :
  let m := MNot (MAnyOf [MAnd (gtn 3) (MNot (eqn 5)); MPoly (mkflags (-1) (-1) 1 true false false) (MNoneOf [eqn 1; eqn 2]); MCond false anyv (eqn 9)]) in
  logical m /\ isnull (matches m (mkctx true false false 0 range_max 1) (VNum 4)) = true /\ isnull (matches m ctx0 (VNum 5)) = true /\ isnull (matches m ctx0 (VNum 1)) = false.
Proof. cbn. auto 10. Qed.
(** negation of a whole expression, by Not or by the context, turns the verdict round *)
Theorem C29_not : forall m c v, logical m -> isnull (matches (MNot m) c v) = negb (isnull (matches m c v)).
Proof. exact negate. Qed.
Print Assumptions C29_not.
Theorem C29_context : forall m c v, logical m -> isnull (matches m (upd_neg c (negb (c_neg c))) v) = negb (isnull (matches m c v)).
Proof. exact negate_ctx. Qed.
Print Assumptions C29_context.
(** De Morgan *)
Theorem C29_demorgan_and : forall a b c v, logical a -> logical b -> isnull (matches (MNot (MAnd a b)) c v) = isnull (matches (MOr (MNot a) (MNot b)) c v).
Proof. exact demorgan_and. Qed.
Print Assumptions C29_demorgan_and.
Theorem C29_demorgan_or : forall a b c v, logical a -> logical b -> isnull (matches (MNot (MOr a b)) c v) = isnull (matches (MAnd (MNot a) (MNot b)) c v).
Proof. exact demorgan_or. Qed.
Print Assumptions C29_demorgan_or.
Example C29_demorgan_example : isnull (matches (MNot (MAnd (gtn 3) (eqn 5))) ctx0 (VNum 4)) = true /\ isnull (matches (MOr (MNot (gtn 3)) (MNot (eqn 5))) ctx0 (VNum 4)) = true.
Proof. split; reflexivity. Qed.
(** only the parity of exclamation marks counts, whatever other operators stand between them *)
Theorem C29_exclamations : forall ops, f_neg (fold_left apply_op ops flags0) = Nat.odd (nots ops).
Proof. exact ops_neg0. Qed.
Print Assumptions C29_exclamations.
Example C29_exclamations_example : f_neg (fold_left apply_op [OpNot; OpCaseless; OpNot; OpTimes 3; OpNot] flags0) = true.
Proof. reflexivity. Qed.

(** C30: any expression, containers included, matches exactly when its meaning holds (does not hold, in a negating context) *)
Theorem C30_verdict : forall m c v, typed m v -> times_ok m (c_times c) ->
  (matches m c v = Null <-> (if c_neg c then ~ sem m (mkenv (c_ci c) (c_sq c) (c_rs c) (c_re c) (c_times c)) v else sem m (mkenv (c_ci c) (c_sq c) (c_rs c) (c_re c) (c_times c)) v)).
Proof. exact verdict. Qed.
Print Assumptions C30_verdict.
(** as used in OK: nothing asked for outside *)
Theorem C30_top : forall m v, typed m v -> times_ok m 1 -> (matches m ctx0 v = Null <-> sem m env0 v).
Proof. exact verdict0. Qed.
Print Assumptions C30_top.
(** Has( > 3) * 2 on positions 1..3; Every with a nested Has; MaxOf; Pair through Has on a map; ListOf from a start; CountOf *)
Definition m1 := MPoly (mkflags 1 4 2 false false false) (MHas whole (gtn 3)).
Definition v1 := VSeq [VNum 9; VNum 4; VNum 1; VNum 7; VNum 8].
Definition m2 := MNot (MEvery whole (MHas whole (eqn 2))).
Definition v2 := VSeq [VSeq [VNum 2; VNum 3]; VSeq [VNum 4]].
Definition m3 := MHas whole (MPoly flags0 (MPair (gtn 1) (eqn 20))).
Definition v3 := VMap [(VNum 1, VNum 20); (VNum 2, VNum 20)].
Example C30_example :
  (typed m1 v1 /\ times_ok m1 1 /\ matches m1 ctx0 v1 = Null) /\ (typed m2 v2 /\ times_ok m2 1 /\ matches m2 ctx0 v2 = Null) /\
  (typed m3 v3 /\ times_ok m3 1 /\ matches m3 ctx0 v3 = Null) /\
  matches (MMaxMin true whole (eqn 9)) ctx0 v1 = Null /\ matches (MMaxMin false (mkrange 3 9) (eqn 8)) ctx0 v1 <> Null /\
  matches (MListOf (mkrange 1 range_max) [eqn 4; anyv]) ctx0 v1 = Null /\ matches (MCountOf (eqn 5)) ctx0 v1 = Null.
Proof.
  split; [|split; [|split]].
  - split; [cbn; auto|]. split; [cbn; auto|vm_compute; reflexivity].
  - split; [cbn; auto|]. split; [cbn; auto|vm_compute; reflexivity].
  - split; [|split; [cbn; auto|vm_compute; reflexivity]]. cbn. intros a [<-|[<-|[]]]; eexists _, _; split; eauto.
  - split; [vm_compute; reflexivity|]. split; [vm_compute; discriminate|]. split; vm_compute; reflexivity.
Qed.
(** ranges: Every(m)(n) and Every(m) / n concern the first n elements, Every(m)(s, e) those from s up to but not e, whatever
    else is asked of the matcher; Every<n>(m) and Every<s, e>(m) likewise *)
Theorem C30_first : forall f o n m v, f_neg f = false -> 0 <= n <= longest -> o = OpRange n (-1) \/ o = OpEnd n -> typed (MEvery default_range m) v -> times_ok (MEvery default_range m) (f_times f) ->
  (matches (MPoly (apply_op f o) (MEvery default_range m)) ctx0 v = Null <-> forall i a, Z.of_nat i < n -> nth_error (members v) i = Some a -> sem m (mkenv (f_ci f) (f_sq f) 0 longest 1) a).
Proof. exact every_first. Qed.
Print Assumptions C30_first.
Theorem C30_between : forall f s e m v, f_neg f = false -> 0 <= s -> 0 <= e <= longest -> typed (MEvery default_range m) v -> times_ok (MEvery default_range m) (f_times f) ->
  (matches (MPoly (apply_op f (OpRange s e)) (MEvery default_range m)) ctx0 v = Null <-> forall i a, s <= Z.of_nat i < e -> nth_error (members v) i = Some a -> sem m (mkenv (f_ci f) (f_sq f) 0 longest 1) a).
Proof. exact every_between. Qed.
Print Assumptions C30_between.
Theorem C30_template : forall s e m v, 0 <= s <= longest -> e = -1 \/ 0 <= e <= longest -> typed (MEvery (range_of s e) m) v -> times_ok (MEvery (range_of s e) m) 1 ->
  (matches (MEvery (range_of s e) m) ctx0 v = Null <-> forall i a, (if e =? -1 then Z.of_nat i < s else s <= Z.of_nat i < e) -> nth_error (members v) i = Some a -> sem m env0 a).
Proof. exact every_template. Qed.
Print Assumptions C30_template.
Definition v4 := VSeq [VNum 1; VNum 5; VNum 6; VNum 2].
Example C30_ranges_example : matches (MPoly (apply_op flags0 (OpRange 1 3)) (MEvery default_range (gtn 3))) ctx0 v4 = Null /\ matches (MPoly (apply_op flags0 (OpRange 1 4)) (MEvery default_range (gtn 3))) ctx0 v4 <> Null
  /\ matches (MPoly (apply_op flags0 (OpRange 1 (-1))) (MEvery default_range (eqn 1))) ctx0 v4 = Null /\ matches (MPoly (apply_op flags0 (OpEnd 2)) (MEvery default_range (eqn 1))) ctx0 v4 <> Null
  /\ matches (MEvery (range_of 1 3) (gtn 3)) ctx0 v4 = Null /\ typed (MEvery default_range (gtn 3)) v4 /\ times_ok (MEvery default_range (gtn 3)) 1.
Proof. repeat split; try (vm_compute; first [reflexivity|discriminate]). left. auto. Qed.
(** Has(k) on a map: some key; HasKey, HasValue, Has(k, v) with a count: so many entries *)
Theorem C30_has_on_map : forall k l, is_pair k = false -> (forall a b, In (a, b) l -> typed k a) -> times_ok k 1 ->
  (matches (MHas default_range k) ctx0 (VMap l) = Null <-> exists i a b, Z.of_nat i < longest /\ nth_error l i = Some (a, b) /\ sem k env0 a).
Proof. exact has_on_map. Qed.
Print Assumptions C30_has_on_map.
Theorem C30_has_key : forall n k l, (forall a b, In (a, b) l -> typed k a) -> n = 1 \/ nohas k = true -> times_ok k n ->
  (matches (MPoly (apply_op flags0 (OpTimes n)) (has_key k)) ctx0 (VMap l) = Null <->
   exists ps, NoDup ps /\ n <= Z.of_nat (length ps) /\ forall i, In i ps -> Z.of_nat i < longest /\ exists a b, nth_error l i = Some (a, b) /\ sem k env0 a).
Proof. exact has_key_spec. Qed.
Print Assumptions C30_has_key.
Theorem C30_has_value : forall n v l, (forall a b, In (a, b) l -> typed v b) -> n = 1 \/ nohas v = true -> times_ok v n ->
  (matches (MPoly (apply_op flags0 (OpTimes n)) (has_value v)) ctx0 (VMap l) = Null <->
   exists ps, NoDup ps /\ n <= Z.of_nat (length ps) /\ forall i, In i ps -> Z.of_nat i < longest /\ exists a b, nth_error l i = Some (a, b) /\ sem v env0 b).
Proof. exact has_value_spec. Qed.
Print Assumptions C30_has_value.
Theorem C30_has_entry : forall n k v l, (forall a b, In (a, b) l -> typed k a /\ typed v b) -> n = 1 \/ (nohas k = true /\ nohas v = true) -> times_ok k n -> times_ok v n ->
  (matches (MPoly (apply_op flags0 (OpTimes n)) (has2 k v)) ctx0 (VMap l) = Null <->
   exists ps, NoDup ps /\ n <= Z.of_nat (length ps) /\ forall i, In i ps -> Z.of_nat i < longest /\ exists a b, nth_error l i = Some (a, b) /\ sem k env0 a /\ sem v env0 b).
Proof. exact has2_spec. Qed.
Print Assumptions C30_has_entry.
Example C30_map_example : matches (MPoly (apply_op flags0 (OpTimes 2)) (has_value (eqn 20))) ctx0 v3 = Null /\ matches (MPoly (apply_op flags0 (OpTimes 2)) (has_key (gtn 1))) ctx0 v3 <> Null
  /\ matches (MHas default_range (eqn 2)) ctx0 v3 = Null /\ matches (MHas default_range (eqn 20)) ctx0 v3 <> Null /\ matches (has2 (eqn 2) (eqn 20)) ctx0 v3 = Null.
Proof. repeat split; vm_compute; first [reflexivity|discriminate]. Qed.
(** elements from position 5413722 on are not looked at *)
Theorem C30_limit_refuted : exists m v i a, matches (MEvery default_range m) ctx0 v = Null /\ nth_error (members v) i = Some a /\ ~ sem m env0 a.
Proof.
  exists (eqn 0), (VSeq (repeat (VNum 0) (Z.to_nat longest) ++ [VNum 1])), (Z.to_nat longest), (VNum 1). split; [|split].
  - apply beyond_limit; unfold longest; cbn; auto; lia.
  - cbn [members]. rewrite nth_error_app2, repeat_length, Nat.sub_diag; rewrite ?repeat_length; auto.
  - cbn. discriminate.
Qed.
Print Assumptions C30_limit_refuted.
(** Has(Has(1)) * 2 on two rows with a 1 each: the count is handed on to the inner Has *)
Theorem C30_nested_times_refuted : exists m v, typed m v /\ sem m env0 v /\ matches m ctx0 v <> Null.
Proof.
  exists (MPoly (mkflags (-1) (-1) 2 false false false) (MHas whole (MPoly flags0 (MHas whole (eqn 1))))), (VSeq [VSeq [VNum 1]; VSeq [VNum 1]]).
  split; [cbn; auto|]. split; [|vm_compute; discriminate].
  assert (K : sem (MPoly flags0 (MHas whole (eqn 1))) (within env0) (VSeq [VNum 1])).
  { cbn. exists [0%nat]. split; [repeat constructor; auto|]. split; [cbn; lia|]. intros i [<-|[]]. split; [split; split; vm_compute; first [discriminate|reflexivity]|]. exists (VNum 1). auto. }
  cbn [sem f_neg]. exists [0%nat; 1%nat]. split; [repeat constructor; cbn; intuition lia|]. split; [cbn; lia|].
  intros i [<-|[<-|[]]]; (split; [split; split; vm_compute; first [discriminate|reflexivity]|]); exists (VSeq [VNum 1]); (split; [reflexivity|]); exact K.
Qed.
Print Assumptions C30_nested_times_refuted.
(** Pair on something that is not a pair fails, and so does its negation *)
Theorem C30_not_a_pair_refuted : exists a b v, matches (MPair a b) ctx0 v <> Null /\ matches (MNot (MPair a b)) ctx0 v <> Null.
Proof. exists anyv, anyv, (VNum 1). split; vm_compute; discriminate. Qed.
Print Assumptions C30_not_a_pair_refuted.
(** ListOf accepts longer containers *)
Theorem C30_listof_length_refuted : exists l v, matches (MListOf whole l) ctx0 v = Null /\ length (elems v) <> length l.
Proof. exists [eqn 1; eqn 2], (VSeq [VNum 1; VNum 2; VNum 3]). split; [vm_compute; reflexivity|discriminate]. Qed.
Print Assumptions C30_listof_length_refuted.
(** CountOf counts the whole container, whatever the range *)
Theorem C30_countof_range_refuted : exists m s e v, matches (MPoly (mkflags s e 1 false false false) (MCountOf m)) ctx0 v <> Null /\ sem m env0 (VNum (e - s)) /\ 0 <= s < e /\ e <= Z.of_nat (length (elems v)).
Proof. exists (eqn 2), 0, 2, v1. split; [vm_compute; discriminate|]. cbn. repeat split; discriminate. Qed.
Print Assumptions C30_countof_range_refuted.
(** Every(…)(3, 5) on a pointer of unknown size looks at the first two elements only, none of which is in the range *)
Theorem C30_pointer_range_refuted : exists c m l mem, native (-1) c whole mem = Some l /\ matches (MEvery whole m) c (VSeq l) = Null /\ ~ sem (MEvery whole m) (mkenv false false (c_rs c) (c_re c) 1) (VSeq mem).
Proof.
  exists (mkctx false false false 3 5 1), (eqn 1), [VNum 1; VNum 1], [VNum 1; VNum 1; VNum 1; VNum 2; VNum 2]. split; [reflexivity|]. split; [vm_compute; reflexivity|].
  intros H. specialize (H 3%nat (VNum 2) eq_refl). cbn in H. assert (false = true); [|discriminate]. apply H. unfold selected, whole, range_max. cbn. lia.
Qed.
Print Assumptions C30_pointer_range_refuted.

(** C31: with an odd number of selected elements MedianOf compares the middle one; with none it fails *)
Theorem C31_odd : forall inr l, Nat.odd (length (chosen inr l)) = true -> exists x, median inr l = Some (Some x) /\ is_middle x (chosen inr l).
Proof. exact median_odd. Qed.
Print Assumptions C31_odd.
Theorem C31_none : forall inr l, median inr l = None <-> chosen inr l = [].
Proof. exact median_none. Qed.
Print Assumptions C31_none.
Example C31_example : median (fun i => i <? 5) [9; 2; 7; 3; 3; 100] = Some (Some 3) /\ Nat.odd (length (chosen (fun i => i <? 5) [9; 2; 7; 3; 3; 100])) = true.
Proof. split; reflexivity. Qed.
(** four elements: not the mean of the two in the middle; two elements: reads past the end *)
Theorem C31_even_refuted : (exists l x, chosen (fun _ => true) l = l /\ length l = 4%nat /\ Sorted Z.le l /\ median (fun _ => true) l = Some (Some x) /\ 2 * x <> nth 1 l 0 + nth 2 l 0 /\ x <> (nth 1 l 0 + nth 2 l 0) / 2) /\
  (exists l, length l = 2%nat /\ median (fun _ => true) l = Some None).
Proof.
  split.
  - exists [1; 2; 3; 4], 3. split; [reflexivity|]. split; [reflexivity|]. split; [repeat constructor; lia|]. split; [reflexivity|]. split; discriminate.
  - exists [1; 2]. split; reflexivity.
Qed.
Print Assumptions C31_even_refuted.
