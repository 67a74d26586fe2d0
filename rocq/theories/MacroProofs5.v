(** Proofs about the list macros: emptiness, the first and the other values, and the number of values. *)
From Coq Require Import List NArith Bool Arith Lia DecimalString.
From Verif Require Import Base MacroModel MacroProofs MacroProofs2 MacroProofs3 MacroProofs4.
Import ListNotations.
Local Open Scope N_scope.
Local Arguments lookup : simpl never.
Local Arguments bytes_eqb : simpl never.

(** the macros these use *)
Definition used : list bytes := Eval vm_compute in
  [str "H2PP_HAS_COMMA"; str "H2PP_PROXY"; str "_H2PP_PROXY"; str "H2PP_RESCAN"; str "_H2PP_64TH"; str "H2PP_IS_EMPTY"; str "_H2PP_IS_EMPTY"; str "H2PP_COMMA"; str "_H2PP_CAT5"; str "_H2PP_IS_EMPTY_CASE_0001"; str "H2PP_CAT2"; str "_H2PP_CAT2"; str "H2PP_HEAD"; str "_H2PP_HEAD_0"; str "_H2PP_HEAD_0_R"; str "_H2PP_HEAD_1"; str "H2PP_TAIL"; str "_H2PP_TAIL_0"; str "_H2PP_TAIL_0_R"; str "_H2PP_TAIL_1"; str "H2PP_CAT"; str "H2PP_NARG"; str "_H2PP_NARG_0"; str "_H2PP_NARG_1"; str "H2PP_ARG_COUNT"].
Definition run (s : list stok) : option (list stok) := sk find kinds th_sum used 60 true [] (map ST s).

Definition heads : list (list stok) := [[O 0]; [R TLp; O 1; R TRp]; [R TLp; O 1; R TRp; O 2]].
Definition check (name : bytes) (res : list stok -> bool -> list stok) : bool :=
  forallb (fun h => gives (run (call h name)) (res h false) && gives (run (call (h ++ [R TComma; O 5]) name)) (res h true)) heads.

Definition dummy (k : nat) : list tok := match kinds k with Inn => [] | _ => [number 0] end.
Lemma dummy_fits : forall k, fits table (kinds k) (dummy k).
Proof.
  intro k. unfold dummy. destruct (kinds k); (split; [repeat constructor|]); cbn; repeat split; discriminate.
Qed.
Lemma ncommas_commas : forall ws, Forall value ws -> ncommas 0 (commas ws) = pred (length ws).
Proof.
  intros [|w ws] H; [reflexivity|]. inversion H as [|? ? Hw Hs]; subst. rewrite commas_cons. destruct Hw as (_ & _ & W).
  rewrite (ncommas_app _ _ _ _ (walk_true _ _ _ W)), (ncommas_value _ _ _ W). cbn [plus length pred].
  clear - Hs. induction Hs as [|x ws (_ & _ & W) _ IH]; [reflexivity|]. cbn [flat_map app ncommas length]. f_equal.
  rewrite (ncommas_app _ _ _ _ (walk_true _ _ _ W)), (ncommas_value _ _ _ W). exact IH.
Qed.

(** a head and what follows it, as values of the parts *)
Definition parts (w p q : list tok) (ws : list (list tok)) (k : nat) : list tok :=
  match k with
  | 0%nat => w | 1%nat => p | 2%nat => q | 4%nat => [number (2 + pred (length ws))] | 5%nat => commas ws | _ => dummy k
  end.
Lemma number_fits : forall n, fits table Loose [number n].
Proof. intro n. split; [repeat constructor|]. split; [discriminate|reflexivity]. Qed.
Lemma parts_ok : forall w p q ws, fits table Plain w -> fits table Inn p -> value q -> Forall value ws -> forall k, fits table (kinds k) (parts w p q ws k).
Proof.
  intros w p q ws Hw Hp Hq Hs k. do 6 (destruct k as [|k]; [cbn [parts kinds]; first [assumption|apply dummy_fits|apply number_fits|apply commas_inn; exact Hs]|]).
  apply (dummy_fits (S (S (S (S (S (S k))))))).
Qed.
Lemma shapes : forall w ws, value w -> Forall value ws -> exists v h, In h heads /\ (forall k, fits table (kinds k) (v k)) /\ flat v h = w /\ v 5%nat = commas ws /\ v 4%nat = [number (2 + pred (length ws))].
Proof.
  intros w ws Hw Hs. destruct (value_shape w Hw) as [P|(p & q & -> & Hp & [->|Hq])].
  - exists (parts w [] [number 0] ws), [O 0]. split; [left; reflexivity|]. split; [|split; [cbn; apply app_nil_r|split; reflexivity]].
    intro k. apply parts_ok; auto; [split; [constructor|reflexivity]|apply number_fits].
  - exists (parts [number 0] p [number 0] ws), [R TLp; O 1; R TRp]. split; [right; left; reflexivity|]. split; [|repeat split].
    intro k. apply parts_ok; auto; [|apply number_fits]. apply (dummy_fits 0).
  - exists (parts [number 0] p q ws), [R TLp; O 1; R TRp; O 2]. split; [right; right; left; reflexivity|]. split; [|split; [|split; reflexivity]].
    + intro k. apply parts_ok; auto. apply (dummy_fits 0).
    + cbn. rewrite app_nil_r. reflexivity.
Qed.
Local Opaque sk find.
Lemma th_used : forall n un fn x, th_sum n = Some (un, fn) -> In x un -> has x used = true.
Proof. intros n un fn x H I. unfold th_sum in H. destruct (bytes_eqb n th64); [|discriminate]. injection H as <- _. destruct I as [<-|[<-|[]]]; vm_compute; reflexivity. Qed.
Lemma by_shapes : forall name res, check name res = true -> forall w ws, value w -> Forall value ws -> (length ws <= 62)%nat ->
  exists v h, flat v h = w /\ v 5%nat = commas ws /\ v 4%nat = [number (2 + pred (length ws))] /\
    closed table used (called name (commas (w :: ws))) (flat v (res h (match ws with [] => false | _ => true end))).
Proof.
  intros name res C w ws Hw Hs L. destruct (shapes w ws Hw Hs) as (v & h & Hh & Hv & H1 & H5 & H4).
  unfold check in C. rewrite forallb_forall in C. specialize (C h Hh). apply andb_prop in C. destruct C as [C1 C2]. apply gives_eq in C1, C2.
  exists v, h. split; [exact H1|]. split; [exact H5|]. split; [exact H4|].
  assert (S5 : ncommas 0 (v 5%nat) = pred (length ws)) by (rewrite H5; apply ncommas_commas; exact Hs).
  assert (SK : forall s out, run s = Some out -> closed table used (flat v s) (flat v out)).
  { intros s out R. apply (sk_closed table find find_ok kinds th_sum used v Hv th_used (th_sum_ok v (pred (length ws)) Hv S5 H4 ltac:(lia)) _ _ _ R). }
  destruct ws as [|x ws].
  - apply SK in C1. rewrite flat_call, H1 in C1. exact C1.
  - apply SK in C2. rewrite flat_call, flat_app, H1 in C2. cbn [flat flat_map flat1 app] in C2. rewrite app_nil_r, H5 in C2. exact C2.
Qed.

Definition n_empty : bytes := Eval vm_compute in str "H2PP_IS_EMPTY".
Definition n_head : bytes := Eval vm_compute in str "H2PP_HEAD".
Definition n_tail : bytes := Eval vm_compute in str "H2PP_TAIL".
Definition n_narg : bytes := Eval vm_compute in str "H2PP_NARG".
Lemma check_empty : check n_empty (fun _ _ => [R (number 0)]) = true. Proof. vm_cast_no_check (eq_refl true). Qed.
Lemma check_head : check n_head (fun h _ => h) = true. Proof. vm_cast_no_check (eq_refl true). Qed.
Lemma check_tail : check n_tail (fun _ m => if m then [O 5] else []) = true. Proof. vm_cast_no_check (eq_refl true). Qed.
Lemma check_narg : check n_narg (fun _ m => if m then [O 4] else [R (number 1)]) = true. Proof. vm_cast_no_check (eq_refl true). Qed.
Definition few (vs : list (list tok)) : Prop := Forall value vs /\ (length vs <= 63)%nat.

Lemma empty_values : forall w ws, few (w :: ws) -> closed table used (called n_empty (commas (w :: ws))) [number 0].
Proof.
  intros w ws [H L]. inversion H; subst. cbn in L. destruct (by_shapes _ _ check_empty w ws) as (v & h & _ & _ & _ & C); [assumption|assumption|lia|]. exact C.
Qed.
Lemma head_values : forall w ws, few (w :: ws) -> closed table used (called n_head (commas (w :: ws))) w.
Proof.
  intros w ws [H L]. inversion H; subst. cbn in L. destruct (by_shapes _ _ check_head w ws) as (v & h & H1 & _ & _ & C); [assumption|assumption|lia|].
  cbv beta in C. rewrite H1 in C. exact C.
Qed.
Lemma tail_values : forall w ws, few (w :: ws) -> closed table used (called n_tail (commas (w :: ws))) (commas ws).
Proof.
  intros w ws [H L]. inversion H; subst. cbn in L. destruct (by_shapes _ _ check_tail w ws) as (v & h & _ & H5 & _ & C); [assumption|assumption|lia|].
  cbv beta in C. destruct ws as [|x ws]; [exact C|]. cbn [flat flat_map flat1] in C. rewrite app_nil_r, H5 in C. exact C.
Qed.
Lemma narg_values : forall w ws, few (w :: ws) -> closed table used (called n_narg (commas (w :: ws))) [number (length (w :: ws))].
Proof.
  intros w ws [H L]. inversion H; subst. cbn in L. destruct (by_shapes _ _ check_narg w ws) as (v & h & _ & _ & H4 & C); [assumption|assumption|lia|].
  cbv beta in C. destruct ws as [|x ws]; [exact C|]. cbn [flat flat_map flat1] in C. rewrite app_nil_r, H4 in C. exact C.
Qed.

(** and of no values *)
Lemma run_closed : forall s out, run (map R s) = Some (map R out) -> closed table used s out.
Proof.
  intros s out H. assert (Hv : forall k, fits table (kinds k) (parts [number 0] [] [number 0] [] k)).
  { apply parts_ok; [apply (dummy_fits 0)|split; [constructor|reflexivity]|apply number_fits|constructor]. }
  pose proof (sk_closed table find find_ok kinds th_sum used _ Hv th_used (th_sum_ok _ 0 Hv eq_refl eq_refl ltac:(lia)) _ _ _ H) as C. rewrite !flat_real in C. exact C.
Qed.
Lemma empty_none : closed table used (called n_empty []) [number 1].
Proof. apply run_closed. vm_cast_no_check (eq_refl (Some [R (number 1)])). Qed.
Lemma head_none : closed table used (called n_head []) [].
Proof. apply run_closed. vm_cast_no_check (eq_refl (Some ([] : list stok))). Qed.
Lemma tail_none : closed table used (called n_tail []) [].
Proof. apply run_closed. vm_cast_no_check (eq_refl (Some ([] : list stok))). Qed.
Lemma narg_none : closed table used (called n_narg []) [number 0].
Proof. apply run_closed. vm_cast_no_check (eq_refl (Some [R (number 0)])). Qed.
