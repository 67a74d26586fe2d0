(** Attributes that are not named. *)
From Coq Require Import List NArith ZArith Bool Arith Lia.
From Verif Require Import Base FilterModel SockModel SockProofs StdioProofs.
From Verif Require Import SockSpec.
Import ListNotations.
Local Open Scope N_scope.

Lemma keyvalue_none s k : ~ (exists a b c, s = a ++ b ++ c /\ fold_str true b = fold_str true k) -> get_keyvalue s k = None.
Proof. intro H. unfold get_keyvalue. destruct (from_key s k) as [t|] eqn:E; [|reflexivity]. exfalso. apply H. apply from_key_spec. eauto. Qed.
Lemma inject_unnamed s :
  (~ (exists a b c, s = a ++ b ++ c /\ fold_str true b = fold_str true (str "from")) -> forall f t, inject s = Some (f, t) -> f = []) /\
  (~ (exists a b c, s = a ++ b ++ c /\ fold_str true b = fold_str true (str "to")) -> forall f t, inject s = Some (f, t) -> t = str "*") /\
  (~ (exists a b c, s = a ++ b ++ c /\ fold_str true b = fold_str true (str "from")) -> ~ (exists a b c, s = a ++ b ++ c /\ fold_str true b = fold_str true (str "to")) -> inject s = Some ([], str "*")).
Proof.
  unfold inject. split; [|split].
  - intros H f t. rewrite (keyvalue_none _ _ H). cbn [into]. destruct (into _ _); [|discriminate]. intro E. congruence.
  - intros H f t. rewrite (keyvalue_none _ _ H). cbn [into]. destruct (into _ _); [|discriminate]. intro E. congruence.
  - intros H K. rewrite (keyvalue_none _ _ H), (keyvalue_none _ _ K). reflexivity.
Qed.

(** the characters of addresses *)
Lemma of_address_is : forall c, of_address c = iport_char c.
Proof.
  intro c. unfold of_address, iport_char. destruct (existsb (N.eqb c) (str "0123456789.:*?")) eqn:E; symmetry.
  - apply existsb_exists in E. destruct E as (x & I & Q). apply N.eqb_eq in Q. subst x. revert I. cbn [str In Ascii.N_of_ascii]. intro I. vm_compute in I. repeat (destruct I as [<-|I]; [reflexivity|]). destruct I.
  - destruct (((48 <=? c) && (c <=? 57)) || (c =? 46) || (c =? 58) || (c =? 42) || (c =? 63)) eqn:F; [|reflexivity]. exfalso. rewrite <- not_true_iff_false in E. apply E. apply existsb_exists. exists c. split; [|apply N.eqb_refl].
    rewrite !orb_true_iff, andb_true_iff, !N.leb_le, !N.eqb_eq in F.
    assert (D : c = 48 \/ c = 49 \/ c = 50 \/ c = 51 \/ c = 52 \/ c = 53 \/ c = 54 \/ c = 55 \/ c = 56 \/ c = 57 \/ c = 46 \/ c = 58 \/ c = 42 \/ c = 63) by lia.
    repeat (destruct D as [->|D]; [vm_compute; auto 20|]). subst c. vm_compute. auto 20.
Qed.
Lemma inject_addresses w1 v1 w2 w3 v2 : Forall (fun c => isspace c = true) w1 -> Forall (fun c => isspace c = true) w2 -> Forall (fun c => isspace c = true) w3 ->
  Forall (fun c => of_address c = true \/ isspace c = true \/ c = 34) v1 -> Forall (fun c => of_address c = true \/ isspace c = true \/ c = 34) v2 ->
  filter of_address v1 <> [] -> filter of_address v2 <> [] -> (length (filter of_address v1) <= 255)%nat -> (length (filter of_address v2) <= 255)%nat ->
  inject (str "from" ++ w1 ++ str "=" ++ v1 ++ str "," ++ w2 ++ str "to" ++ w3 ++ str "=" ++ v2) = Some (filter of_address v1, filter of_address v2).
Proof.
  intros W1 W2 W3 V1 V2. rewrite !(filter_ext _ _ of_address_is).
  assert (K : forall v, Forall (fun c => of_address c = true \/ isspace c = true \/ c = 34) v -> Forall (fun c => iport_char c = true \/ filler c) v).
  { intros v H. eapply Forall_impl; [|exact H]. intros c [X|X]; [left; rewrite <- of_address_is; exact X|right; exact X]. }
  intros. apply inject_spec; auto.
Qed.
