(** Proofs about the helpers. *)
From Coq Require Import List ZArith NArith QArith Qround Bool Lia.
From Verif Require Import Base NumModel NumProofs HelperModel HelperSpec.
Import ListNotations.
Local Open Scope Z_scope.

Lemma fit_ok : forall negative (P : Prop) r, (r = true <-> P) -> verdict negative P (fit negative r).
Proof. intros [|] P r H; unfold verdict, fit; destruct r; cbn; split; intro X; try discriminate; try reflexivity; try (apply H; assumption); try (intro; apply H in X; assumption).
  - exfalso. apply X. apply H. reflexivity.
  - intro Y. apply H in Y. discriminate.
Qed.
Lemma valid_bits : forall b, (b =? 8) || (b =? 16) || (b =? 32) || (b =? 64) = true -> b = 8 \/ b = 16 \/ b = 32 \/ b = 64.
Proof. intros b H. rewrite !orb_true_iff, !Z.eqb_eq in H. tauto. Qed.
Lemma valid_common : forall x y, valid x = true -> valid y = true -> valid (common x y) = true /\ common x y <> Boolean.
Proof.
  intros [|b|b] [|c|c] V W; cbn [valid] in V, W; try apply valid_bits in V; try apply valid_bits in W;
  repeat match goal with H : _ \/ _ |- _ => destruct H as [H|H] end; subst; vm_compute; split; try reflexivity; discriminate.
Qed.
Ltac ranges := repeat match goal with
  | H : in_type _ _ = true |- _ => apply andb_prop in H; destruct H
  | H : (_ <=? _) = true |- _ => apply Z.leb_le in H
  | H : (_ <? _) = true |- _ => apply Z.ltb_lt in H
  end.
Lemma common_holds : forall ta a te e, valid ta = true -> valid te = true -> in_type ta a = true -> in_type te e = true -> agreeing ta a te e ->
  in_type (common ta te) a = true /\ in_type (common ta te) e = true.
Proof.
  intros ta a te e V W A E G.
  assert (B : forall v, in_type Boolean v = true -> 0 <= v <= 1) by (intros v H; cbn [in_type] in H; apply orb_prop in H; rewrite !Z.eqb_eq in H; lia).
  destruct ta as [|b|b], te as [|c|c]; cbn [valid] in V, W; try apply valid_bits in V; try apply valid_bits in W;
  repeat match goal with H : in_type Boolean _ = true |- _ => apply B in H end;
  (destruct G as [G|(b' & c' & G1 & G2)]; [|try discriminate G1; try discriminate G2; clear G1 G2]);
  repeat match goal with H : _ \/ _ |- _ => destruct H as [H|H] end; subst;
  match goal with |- in_type ?t _ = true /\ _ => let u := eval vm_compute in t in change t with u end;
  cbn [in_type] in *; ranges;
  repeat match goal with
    | H : context [2 ^ ?x] |- _ => let n := eval vm_compute in (2 ^ x) in change (2 ^ x) with n in H
    | |- context [2 ^ ?x] => let n := eval vm_compute in (2 ^ x) in change (2 ^ x) with n
    end; rewrite !andb_true_iff, ?Z.leb_le, ?Z.ltb_lt; lia.
Qed.
Lemma rem_divides : forall x y, y <> 0 -> (Z.rem x y =? 0) = true <-> Z.divide y x.
Proof. intros x y H. rewrite Z.eqb_eq. apply Z.rem_divide. exact H. Qed.
Lemma remainder_ok : forall ta a te e, valid ta = true -> valid te = true -> in_type (common ta te) a = true -> in_type (common ta te) e = true -> e <> 0 -> ~ overflows ta a te e ->
  remainder ta a te e = Some (Z.rem a e).
Proof.
  intros ta a te e V W A E Z O. destruct (valid_common ta te V W) as [VC NB]. unfold remainder. rewrite !conv_id by assumption. cbv zeta.
  destruct (e =? 0) eqn:EZ; [apply Z.eqb_eq in EZ; contradiction|]. destruct (common ta te) as [|b|b] eqn:C; [reflexivity| |reflexivity].
  destruct ((a =? - 2 ^ (b - 1)) && (e =? -1)) eqn:X; [|reflexivity]. apply andb_prop in X. destruct X as [X Y]. apply Z.eqb_eq in X, Y. exfalso. apply O. split; [exact Y|]. exists b. split; [exact C|exact X].
Qed.
Lemma common_int : forall ta a, valid ta = true -> in_type ta a = true -> in_type (common ta int_type) a = true /\ in_type (common ta int_type) 2 = true.
Proof.
  intros ta a V A. unfold int_type. destruct ta as [|b|b].
  - apply common_holds; try assumption; try reflexivity. left. cbn [in_type] in A. apply orb_prop in A. rewrite !Z.eqb_eq in A. lia.
  - apply common_holds; try assumption; try reflexivity. right. exists b, 32. split; reflexivity.
  - apply common_holds; try assumption; try reflexivity. left. cbn [in_type] in A. ranges. lia.
Qed.
Lemma rem_two : forall ta a, valid ta = true -> in_type ta a = true -> remainder ta a int_type 2 = Some (Z.rem a 2).
Proof. intros ta a V A. destruct (common_int ta a V A) as [X Y]. apply remainder_ok; try assumption; try reflexivity; [discriminate|]. intros [H _]. discriminate. Qed.
Lemma even_iff : forall a, (Z.rem a 2 =? 0) = true <-> Z.Even a.
Proof. intro a. rewrite rem_divides by discriminate. split; intros [k H]; exists k; lia. Qed.
Lemma even_ok : forall negative ta a, valid ta = true -> in_type ta a = true -> exists b, is_even negative ta a = Some b /\ verdict negative (Z.Even a) b.
Proof. intros negative ta a V A. unfold is_even. rewrite rem_two by assumption. eexists. split; [reflexivity|]. apply fit_ok. apply even_iff. Qed.
Lemma odd_ok : forall negative ta a, valid ta = true -> in_type ta a = true -> exists b, is_odd negative ta a = Some b /\ verdict negative (Z.Odd a) b.
Proof.
  intros negative ta a V A. unfold is_odd. rewrite rem_two by assumption. eexists. split; [reflexivity|]. apply fit_ok. rewrite negb_true_iff. pose proof (even_iff a) as E.
  destruct (Z.rem a 2 =? 0); split; intro H; try discriminate; try reflexivity.
  - exfalso. destruct E as [E _]. specialize (E eq_refl). destruct E as [k E]. destruct H as [j H]. lia.
  - destruct (Z.Even_or_Odd a) as [X|X]; [apply E in X; discriminate|exact X].
Qed.
Lemma divable_ok : forall negative te e ta a, valid ta = true -> valid te = true -> in_type ta a = true -> in_type te e = true -> agreeing ta a te e -> e <> 0 -> ~ overflows ta a te e ->
  exists b, is_divable negative te e ta a = Some b /\ verdict negative (Z.divide e a) b.
Proof.
  intros negative te e ta a V W A E G Z O. destruct (common_holds ta a te e V W A E G) as [X Y]. unfold is_divable. rewrite remainder_ok by assumption.
  eexists. split; [reflexivity|]. apply fit_ok. apply rem_divides. exact Z.
Qed.
Lemma divable_undefined : forall negative te e ta a, valid ta = true -> valid te = true -> in_type ta a = true -> in_type te e = true -> agreeing ta a te e ->
  (is_divable negative te e ta a = None <-> e = 0 \/ overflows ta a te e).
Proof.
  intros negative te e ta a V W A E G. split.
  - intro H. destruct (Z.eq_dec e 0) as [Z|Z]; [left; exact Z|right]. destruct (common_holds ta a te e V W A E G) as [X Y].
    destruct (valid_common ta te V W) as [VC NB]. unfold is_divable, remainder in H. rewrite !conv_id in H by assumption. cbv zeta in H. apply Z.eqb_neq in Z. rewrite Z in H.
    destruct (common ta te) as [|b|b] eqn:C; try discriminate. destruct ((a =? - 2 ^ (b - 1)) && (e =? -1)) eqn:K; [|discriminate]. apply andb_prop in K. destruct K as [K1 K2]. apply Z.eqb_eq in K1, K2.
    split; [exact K2|]. exists b. split; [exact C|exact K1].
  - intro H. destruct (common_holds ta a te e V W A E G) as [X Y]. destruct (valid_common ta te V W) as [VC NB]. unfold is_divable, remainder. rewrite !conv_id by assumption. cbv zeta.
    destruct H as [->|(-> & b & C & ->)]; [reflexivity|]. rewrite C. rewrite !Z.eqb_refl. reflexivity.
Qed.
Lemma integer_ok : forall negative a, verdict negative (match a with Finite q => whole_number q | Infinite _ => True | NotANumber => False end) (is_integer negative a).
Proof.
  intros negative a. unfold is_integer. apply fit_ok. destruct a as [q|p|]; cbn [floor equal].
  - rewrite Qeq_bool_iff. split.
    + intro H. exists (Qfloor q). symmetry. exact H.
    + intros [z H]. rewrite (Qfloor_comp _ _ H), Qfloor_Z. symmetry. exact H.
  - rewrite eqb_reflx. tauto.
  - split; [discriminate|contradiction].
Qed.
Lemma nan_ok : forall negative a, verdict negative (a = NotANumber) (is_nan negative a).
Proof. intros negative a. unfold is_nan. apply fit_ok. destruct a; split; intro H; try discriminate; reflexivity. Qed.
Lemma slurp_ok : forall limit f, f_end f = Z.of_nat (length (f_bytes f)) -> f_end f <= limit -> slurp limit (Some f) = Slurped (f_bytes f).
Proof.
  intros limit [n b] H L. cbn [f_end f_bytes] in *. unfold slurp. cbn [f_end f_bytes]. subst n.
  destruct (Z.of_nat (length b) <? 0) eqn:X; [apply Z.ltb_lt in X; lia|]. destruct (limit <? Z.of_nat (length b)) eqn:Y; [apply Z.ltb_lt in Y; lia|]. cbn [orb].
  rewrite Nat2Z.id, firstn_all, Nat.sub_diag. cbn [repeat]. rewrite app_nil_r. reflexivity.
Qed.
