(** C97: Pointee, Member and CastOf. *)
From Coq Require Import List ZArith NArith Bool Lia.
From Verif Require Import FailModel MatcherModel ProjModel ProjSpec ProjProofs.
Import ListNotations.
Local Open Scope Z_scope.

(** A matcher expression accepts exactly the values it means and rejects the others, as long as no null pointer is read. *)
Theorem C97_verdict : forall m v, simple m -> safe false false m v -> (accepts m v <-> means false false m v) /\ (rejects m v <-> ~ means false false m v).
Proof. exact verdict. Qed.
Print Assumptions C97_verdict.

(** It crashes exactly if a null pointer is read. *)
Theorem C97_crash : forall m v, simple m -> (crashes m v <-> ~ safe false false m v).
Proof. exact crash. Qed.
Print Assumptions C97_crash.

(** The operators ! ~ * before Pointee, Member or CastOf mean the same as before the matcher within. *)
Theorem C97_operators : forall o K f m c v, In o [OpNot; OpCaseless; OpSquash] -> leads K ->
  pmatches (with_op o (poly (K (PPoly f m)))) c v = pmatches (poly (K (with_op o (PPoly f m)))) c v.
Proof. exact operators. Qed.
Print Assumptions C97_operators.

(** A range or a number of times given to Member or CastOf is one for the matcher within, if that has none. *)
Theorem C97_ranges : forall o g f m c v, is_range o -> simple_flags f ->
  pmatches (with_op o (poly (PMember g (PPoly f m)))) c v = pmatches (poly (PMember g (with_op o (PPoly f m)))) c v /\
  pmatches (with_op o (poly (PCastOf g (PPoly f m)))) c v = pmatches (poly (PCastOf g (with_op o (PPoly f m)))) c v.
Proof. exact ranges. Qed.
Print Assumptions C97_ranges.

(** A range given to Pointee is forgotten: Every(1) within the first two elements, asked of a pointer to 1, 1, 7. *)
Theorem C97_pointee_range_refuted : exists o m v, is_range o /\ rejects (with_op o (poly (PPointee m))) v /\ accepts (poly (PPointee (with_op o m))) v.
Proof.
  exists (OpEnd 2), (poly (PEvery (is_num 1))), (Ptr (Some (Seq [num 1; num 1; num 7]))). split; [right; left; exists 2; reflexivity|]. split; [|vm_compute; reflexivity].
  eexists. split; [vm_compute; reflexivity|discriminate].
Qed.
Print Assumptions C97_pointee_range_refuted.

(** && and || do not guard: !NULL && Pointee(5) and NULL || Pointee(5) read a null pointer; AnyOf(NULL, Pointee(5)) does not. *)
Theorem C97_guard_refuted : exists v, crashes (poly (PAnd (with_op OpNot is_null) (poly (PPointee (is_num 5))))) v /\ crashes (poly (POr is_null (poly (PPointee (is_num 5))))) v /\
  accepts (poly (PAnyOf [is_null; poly (PPointee (is_num 5))])) v.
Proof. exists (Ptr None). repeat split. Qed.
Print Assumptions C97_guard_refuted.

(** pointers to objects, one member of which is a pointer to a number *)
Definition first (o : pval) : pval := match o with Obj (x :: _) => x | _ => Ptr None end.
Definition holder (z : Z) : pval := Ptr (Some (Obj [Ptr (Some (num z))])).
Definition wanted : pmatcher := poly (PEvery (poly (PMember first (with_op OpNot (poly (PPointee (is_num 5))))))).
Example C97_verdict_case : simple wanted /\ safe false false wanted (Seq [holder 4; holder 6]) /\ means false false wanted (Seq [holder 4; holder 6]) /\ accepts wanted (Seq [holder 4; holder 6]) /\
  safe false false wanted (Seq [holder 4; holder 5]) /\ ~ means false false wanted (Seq [holder 4; holder 5]) /\ rejects wanted (Seq [holder 4; holder 5]).
Proof.
  assert (S : simple wanted) by (cbn; unfold simple_flags; cbn; tauto).
  assert (U : forall a b, safe false false wanted (Seq [holder a; holder b])).
  { intros a b k x [N _]. destruct k as [|[|[|k]]]; cbn in N; try discriminate; injection N as <-; (eexists; split; [left; reflexivity|]; eexists; split; [reflexivity|exact Logic.I]). }
  assert (A : accepts wanted (Seq [holder 4; holder 6])) by (vm_compute; reflexivity).
  assert (R : rejects wanted (Seq [holder 4; holder 5])) by (eexists; split; [vm_compute; reflexivity|discriminate]).
  repeat split; auto; [exact (proj1 (proj1 (C97_verdict _ _ S (U 4 6))) A)|exact (proj1 (proj2 (C97_verdict _ _ S (U 4 5))) R)].
Qed.
Example C97_crash_case : crashes wanted (Seq [holder 4; Ptr None]) /\ ~ safe false false wanted (Seq [holder 4; Ptr None]) /\ ~ crashes (poly (PHas (poly (PPointee (is_num 5))))) (Seq [Ptr (Some (num 5)); Ptr None]).
Proof.
  assert (A : crashes wanted (Seq [holder 4; Ptr None])) by (vm_compute; reflexivity). split; [exact A|]. split; [|vm_compute; discriminate].
  apply (C97_crash wanted); [cbn; unfold simple_flags; cbn; tauto|exact A].
Qed.
Example C97_operators_case : In OpNot [OpNot; OpCaseless; OpSquash] /\ leads PPointee /\ rejects (with_op OpNot (poly (PPointee (is_num 5)))) (Ptr (Some (num 5))) /\ rejects (poly (PPointee (with_op OpNot (is_num 5)))) (Ptr (Some (num 5))).
Proof. split; [left; reflexivity|]. split; [left; reflexivity|]. split; (eexists; split; [vm_compute; reflexivity|discriminate]). Qed.
Example C97_ranges_case : is_range (OpRange 1 3) /\ simple_flags flags0 /\ accepts (with_op (OpRange 1 3) (poly (PMember first (poly (PEvery (is_num 1)))))) (Obj [Seq [num 9; num 1; num 1; num 7]]) /\
  accepts (poly (PMember first (with_op (OpRange 1 3) (poly (PEvery (is_num 1)))))) (Obj [Seq [num 9; num 1; num 1; num 7]]) /\ rejects (poly (PMember first (poly (PEvery (is_num 1))))) (Obj [Seq [num 9; num 1; num 1; num 7]]).
Proof. split; [left; exists 1, 3; reflexivity|]. split; [unfold simple_flags; cbn; tauto|]. split; [vm_compute; reflexivity|]. split; [vm_compute; reflexivity|]. eexists; split; [vm_compute; reflexivity|discriminate]. Qed.
