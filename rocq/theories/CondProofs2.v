(** Proofs about checks of conditions: integers. *)
From Coq Require Import List ZArith Bool Arith Lia.
From Verif Require Import NumModel NumSpec NumProofs CondModel CondSpec CondProofs.
Import ListNotations.
Local Open Scope Z_scope.

Lemma common_compared : forall a b, valid a = true -> valid b = true -> common b a = compared_in a b.
Proof.
  intros a b Ha Hb. apply valid_cases in Ha. apply valid_cases in Hb.
  repeat (destruct Ha as [->|Ha]; [|]); try subst a; repeat (destruct Hb as [->|Hb]; [vm_compute; reflexivity|]); subst b; vm_compute; reflexivity.
Qed.

(** OK(l op r) on integers is what C++ says *)
Lemma ok1_cpp : forall op tl l tr r, value tl l -> value tr r -> comparable op tl l tr r -> (ok1 op tl l tr r = true <-> true_in_cpp op tl l tr r).
Proof.
  intros op tl l tr r Hl Hr C. unfold true_in_cpp. rewrite <- (common_compared tl tr (proj1 Hl) (proj1 Hr)).
  assert (op = OEq \/ op = ONe \/ (op = OGt \/ op = OLt \/ op = OGe \/ op = OLe)) as [O|[O|O]] by (destruct op; auto 6).
  - subst op. destruct C as (C1 & C2 & C3).
    assert (signed tr = signed tl \/ 0 <= r /\ 0 <= l) as C1' by (destruct C1 as [C1|C1]; [left; auto|right; tauto]).
    destruct (common_ok tr tl r l Hr Hl C1') as (V & K1 & K2). rewrite !conv_id by auto. apply operators; auto.
    all: try discriminate. intros _ Hb. destruct (C2 Hb) as [->| ->]; reflexivity.
  - subst op. destruct C as (C1 & C2 & C3).
    assert (signed tr = signed tl \/ 0 <= r /\ 0 <= l) as C1' by (destruct C1 as [C1|C1]; [left; auto|right; tauto]).
    destruct (common_ok tr tl r l Hr Hl C1') as (V & K1 & K2). rewrite !conv_id by auto. apply operators; auto.
    intros _ Hb. destruct (C2 Hb) as [->| ->]; reflexivity.
  - destruct O as [O|[O|[O|O]]]; subst op; cbn [ok1 holds]; unfold ord_match, compare; [rewrite Z.ltb_lt|rewrite Z.ltb_lt|rewrite Z.leb_le|rewrite Z.leb_le]; lia.
Qed.

Lemma truth_01 : forall v, value Boolean v -> v = 0 \/ v = 1.
Proof. intros v [_ H]. cbn in H. apply orb_true_iff in H. rewrite !Z.eqb_eq in H. exact H. Qed.

(** the verdict on a condition is its value in C++ *)
Lemma verdict : forall eval x rest t j oppose ty v, evaluates eval -> means x rest t -> check x rest = Some j -> eval t = Some (ty, v) ->
  (forall op l r tl a tr b, j = Comparison op l r -> eval l = Some (tl, a) -> eval r = Some (tr, b) -> comparable op tl a tr b) ->
  exists p, passes eval oppose j = Some p /\ (p = true <-> (v <> 0 <-> oppose = false)).
Proof.
  intros eval x rest t j oppose ty v [V Ev] M C T K. destruct (as_written x rest t j M C) as [->|(op & l & r & -> & ->)].
  - cbn [passes]. rewrite T. eexists. split; [reflexivity|]. destruct (Z.eqb_spec v 0), oppose; cbn; intuition (try discriminate; try congruence).
  - destruct (Ev op l r ty v T) as (tl & a & tr & b & El & Er & -> & I). cbn [passes]. rewrite El, Er. eexists. split; [reflexivity|].
    pose proof (ok1_cpp op tl a tr b (V _ _ _ El) (V _ _ _ Er) (K op l r tl a tr b eq_refl El Er)) as O.
    destruct (truth_01 v (V _ _ _ T)) as [->| ->]; destruct (ok1 op tl a tr b), oppose; cbn; intuition (try discriminate; try congruence; try lia).
Qed.

(** ** an evaluation as C++ does it: + and - in the type of the operands, everything else undefined *)
Definition truth (b : bool) : typed := (Boolean, if b then 1 else 0).
Definition cmp1 (op : op1) (x y : Z) : bool := match op with OEq => x =? y | ONe => negb (x =? y) | OGt => y <? x | OLt => x <? y | OGe => y <=? x | OLe => x <=? y end.
Definition arith (f : Z -> Z -> Z) (a b : typed) : option typed :=
  let t := compared_in (fst a) (fst b) in let v := f (conv t (snd a)) (conv t (snd b)) in
  if valid t && in_type t (conv t v) then Some (t, conv t v) else None.
Fixpoint value_of (t : tree typed) : option typed :=
  match t with
  | Leaf (ty, v) => if valid ty && in_type ty v then Some (ty, v) else None
  | Bin o l r =>
      match value_of l, value_of r with
      | Some a, Some b =>
          match o with
          | Add => arith Z.add a b
          | Sub => arith Z.sub a b
          | _ => match of_1cp o with Some op => let t := compared_in (fst a) (fst b) in Some (truth (cmp1 op (conv t (snd a)) (conv t (snd b)))) | None => None end
          end
      | _, _ => None
      end
  end.
Lemma value_of_evaluates : evaluates value_of.
Proof.
  split.
  - induction t as [[t0 v0]|o l IHl r IHr]; intros ty v H; cbn [value_of] in H.
    + destruct (valid t0 && in_type t0 v0) eqn:B; [|discriminate]. injection H as <- <-. apply andb_true_iff in B. exact B.
    + destruct (value_of l) as [a|]; [|discriminate]. destruct (value_of r) as [b|]; [|discriminate].
      assert (forall f, arith f a b = Some (ty, v) -> value ty v) as AR.
      { intros f Hf. unfold arith in Hf. destruct (valid _ && in_type _ _) eqn:B in Hf; [|discriminate]. injection Hf as <- <-. apply andb_true_iff in B. exact B. }
      assert (forall c, Some (truth c) = Some (ty, v) -> value ty v) as TR by (intros [|] Hc; injection Hc as <- <-; split; reflexivity).
      destruct o; cbn [of_1cp] in H; try discriminate; eauto.
  - intros op l r ty v H. cbn [value_of] in H. destruct (value_of l) as [[tl a]|]; [|destruct op; discriminate]. destruct (value_of r) as [[tr b]|]; [|destruct op; discriminate].
    exists tl, a, tr, b. split; [reflexivity|]. split; [reflexivity|].
    assert (Some (truth (cmp1 op (conv (compared_in tl tr) a) (conv (compared_in tl tr) b))) = Some (ty, v)) as H' by (destruct op; exact H). clear H.
    unfold truth in H'. injection H' as <- <-. split; [reflexivity|]. unfold true_in_cpp.
    generalize (conv (compared_in tl tr) a), (conv (compared_in tl tr) b). intros x y.
    destruct op; cbn [cmp1 holds]; try (destruct (Z.eqb_spec x y)); try (destruct (Z.ltb_spec x y)); try (destruct (Z.ltb_spec y x)); try (destruct (Z.leb_spec x y)); try (destruct (Z.leb_spec y x)); cbn; intuition (try discriminate; try lia).
Qed.
