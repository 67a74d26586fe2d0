From Coq Require Import List NArith ZArith Bool Lia Arith.
From Verif Require Import StubModel StubSpec.
Import ListNotations.
Local Open Scope N_scope.

(** ** memory *)
Lemma put_in : forall m a bs i, (i < length bs)%nat -> put m a bs (a + N.of_nat i) = nth i bs 0.
Proof.
  intros m a bs i H. unfold put. destruct (N.leb_spec a (a + N.of_nat i)); [|lia].
  destruct (N.ltb_spec (a + N.of_nat i) (a + N.of_nat (length bs))); [|lia]. cbn [andb]. f_equal. lia.
Qed.
Lemma put_out : forall m a bs x, ~ (a <= x < a + N.of_nat (length bs)) -> put m a bs x = m x.
Proof.
  intros m a bs x H. unfold put. destruct (N.leb_spec a x); auto. destruct (N.ltb_spec x (a + N.of_nat (length bs))); auto.
  exfalso. apply H. auto.
Qed.
Lemma get_length : forall m a n, length (get m a n) = n.
Proof. intros. unfold get. rewrite map_length, seq_length. auto. Qed.
Lemma nth_get : forall m a n i d, (i < n)%nat -> nth i (get m a n) d = m (a + N.of_nat i).
Proof.
  intros m a n i d H. unfold get. rewrite nth_indep with (d' := (fun i => m (a + N.of_nat i)) 0%nat) by (rewrite map_length, seq_length; auto).
  rewrite (map_nth (fun i => m (a + N.of_nat i))). rewrite seq_nth by auto. auto.
Qed.
Lemma get_put_same : forall m a bs, get (put m a bs) a (length bs) = bs.
Proof.
  intros. apply nth_ext with (d := 0) (d' := 0); [apply get_length|]. intros i H. rewrite get_length in H.
  rewrite nth_get, put_in; auto.
Qed.
Lemma get_ext : forall m m' a n, (forall i, (i < n)%nat -> m (a + N.of_nat i) = m' (a + N.of_nat i)) -> get m a n = get m' a n.
Proof. intros m m' a n H. unfold get. apply map_ext_in. intros i Hi. apply in_seq in Hi. apply H. lia. Qed.
Lemma get_put_other : forall m a bs b, (length bs <= 12)%nat -> apart a b -> a <> b -> get (put m a bs) b 12 = get m b 12.
Proof.
  intros m a bs b L A N. apply get_ext. intros i Hi. apply put_out. intros [H1 H2]. unfold apart in A. lia.
Qed.
Lemma put_get_id : forall m m' a n x, (forall y, ~ (a <= y < a + N.of_nat n) -> m' y = m y) -> put m' a (get m a n) x = m x.
Proof.
  intros m m' a n x H. unfold put. rewrite get_length. destruct (N.leb_spec a x); destruct (N.ltb_spec x (a + N.of_nat n)); cbn [andb];
    try (apply H; lia).
  rewrite nth_get by lia. f_equal. lia.
Qed.

Ltac Zify.zify_post_hook ::= Z.to_euclidean_division_equations.
Lemma unle_le : forall n v, unle (le n v) = v mod 256 ^ N.of_nat n.
Proof.
  induction n as [|n IH]; intro v; cbn [le unle].
  - rewrite N.mod_1_r. auto.
  - rewrite IH. rewrite Nat2N.inj_succ, N.pow_succ_r'. rewrite N.mod_mul_r by (try discriminate; apply N.pow_nonzero; discriminate). lia.
Qed.
Lemma le_length : forall n v, length (le n v) = n.
Proof. induction n; intros; simpl; auto. Qed.

Lemma e9_code_length : forall src dst, (length (e9_code src dst) <= 12)%nat.
Proof. intros. unfold e9_code. destruct (_ || _); cbn [app length]; rewrite ?app_length, !le_length; cbn; lia. Qed.

(** ** C17 *)
Lemma jump_reaches : forall m src dst, src < 2 ^ 64 -> dst < 2 ^ 64 -> jumps_to (e9_set m src dst) src dst.
Proof.
  intros m src dst Hs Hd. unfold jumps_to, bytes_at, e9_set. cbn [seq map].
  assert (P : forall i, (i < length (e9_code src dst))%nat -> put m src (e9_code src dst) (src + N.of_nat i) = nth i (e9_code src dst) 0)
    by (intros; apply put_in; auto).
  unfold e9_code in *. destruct ((e9_delta src dst <? - 0x7fffffff)%Z || (0x7fffffff <? e9_delta src dst)%Z) eqn:E.
  - cbn [le app length] in P. cbn [le app].
    rewrite !P by (cbn; lia). cbn [nth]. unfold x86_jump. f_equal.
    pose proof (unle_le 8 dst) as U. rewrite N.mod_small in U by (exact Hd). cbn [le unle] in U. rewrite <- U at 9.
    clear. lia.
  - cbn [le length] in P. cbn [le].
    rewrite (P 0%nat), (P 1%nat), (P 2%nat), (P 3%nat), (P 4%nat) by (cbn; lia). cbn [nth]. unfold x86_jump. f_equal.
    apply orb_false_iff in E. destruct E as [E1 E2]. apply Z.ltb_ge in E1, E2.
    set (delta := e9_delta src dst) in *. set (r := Z.to_N (delta mod 2 ^ 32)).
    assert (Hr : r < 2 ^ 32) by (unfold r; clear -E1; lia).
    replace (r mod 256 + 256 * (r / 256 mod 256) + 65536 * (r / 256 / 256 mod 256) + 16777216 * (r / 256 / 256 / 256 mod 256)) with r
      by (clear -Hr; lia).
    assert (R : (if r <? 2 ^ 31 then Z.of_N r else (Z.of_N r - 2 ^ 32)%Z) = delta).
    { unfold r. clear -E1 E2. destruct (N.ltb_spec (Z.to_N (delta mod 2 ^ 32)) (2 ^ 31)); lia. }
    rewrite R. unfold delta, e9_delta, signed. set (w := ((Z.of_N dst - Z.of_N src - 5) mod 2 ^ 64)%Z).
    assert (W : (0 <= w < 2 ^ 64)%Z) by (apply Z.mod_pos_bound; lia).
    assert (G : ((Z.of_N src + 5 + w) mod 2 ^ 64 = Z.of_N dst)%Z).
    { unfold w. rewrite Zplus_mod_idemp_r. replace (Z.of_N src + 5 + (Z.of_N dst - Z.of_N src - 5))%Z with (Z.of_N dst) by lia. apply Z.mod_small. lia. }
    destruct (N.ltb_spec (Z.to_N w) (2 ^ (64 - 1))).
    + rewrite Z2N.id by lia. rewrite G. lia.
    + rewrite Z2N.id by lia. change (Z.of_N (2 ^ 64)) with (2 ^ 64)%Z.
      replace (Z.of_N src + 5 + (w - 2 ^ 64))%Z with (Z.of_N src + 5 + w + (-1) * 2 ^ 64)%Z by lia.
      rewrite Z.mod_add by lia. rewrite G. lia.
Qed.

Lemma patch_frame : forall m src dst x, ~ prefix src x -> e9_set m src dst x = m x.
Proof.
  intros m src dst x H. apply put_out. intros [A B]. apply H. split; auto. pose proof (e9_code_length src dst). lia.
Qed.

Lemma save_reset : forall m m' src x, (forall y, ~ prefix src y -> m' y = m y) -> e9_reset m' src (e9_save m src) x = m x.
Proof. intros. apply put_get_id. intros y Hy. apply H. exact Hy. Qed.

Lemma arm_reaches : forall m src dst, dst < 2 ^ 64 -> arm_jump (arm_set m src dst) src = Some dst.
Proof.
  intros m src dst Hd.
  assert (P : forall i, (i < 16)%nat -> arm_set m src dst (src + N.of_nat i) = nth i (arm_code dst) 0).
  { intros i Hi. apply put_in. unfold arm_code. rewrite !app_length, !le_length. exact Hi. }
  unfold arm_jump.
  assert (Q0 := P 0%nat ltac:(lia)). rewrite N.add_0_r in Q0.
  pose proof (P 1%nat ltac:(lia)) as Q1. pose proof (P 2%nat ltac:(lia)) as Q2. pose proof (P 3%nat ltac:(lia)) as Q3.
  pose proof (P 4%nat ltac:(lia)) as Q4. pose proof (P 5%nat ltac:(lia)) as Q5. pose proof (P 6%nat ltac:(lia)) as Q6.
  pose proof (P 7%nat ltac:(lia)) as Q7.
  cbn [N.of_nat Pos.of_succ_nat Pos.succ] in *.
  rewrite Q0, Q1, Q2, Q3, Q4, Q5, Q6, Q7.
  set (w0 := word _ _ _ _). assert (W0 : w0 = 0x58000051) by (vm_compute; reflexivity).
  set (w1 := word (nth 4 _ _) _ _ _). assert (W1 : w1 = 0xD61F0220) by (vm_compute; reflexivity).
  rewrite W0, W1. clear w0 w1 W0 W1.
  set (c := _ && _). assert (C : c = true) by (vm_compute; reflexivity). rewrite C. clear c C.
  replace (src + 4 * ((0x58000051 / 2 ^ 5) mod 2 ^ 19)) with (src + 8) by (f_equal; vm_compute; reflexivity).
  f_equal.
  pose proof (P 8%nat ltac:(lia)) as R0. pose proof (P 9%nat ltac:(lia)) as R1. pose proof (P 10%nat ltac:(lia)) as R2. pose proof (P 11%nat ltac:(lia)) as R3.
  pose proof (P 12%nat ltac:(lia)) as R4. pose proof (P 13%nat ltac:(lia)) as R5. pose proof (P 14%nat ltac:(lia)) as R6. pose proof (P 15%nat ltac:(lia)) as R7.
  cbn [N.of_nat Pos.of_succ_nat Pos.succ] in *.
  replace (src + 8 + 1) with (src + 9) by lia. replace (src + 8 + 2) with (src + 10) by lia. replace (src + 8 + 3) with (src + 11) by lia.
  replace (src + 8 + 4) with (src + 12) by lia. replace (src + 8 + 5) with (src + 13) by lia. replace (src + 8 + 6) with (src + 14) by lia.
  replace (src + 8 + 7) with (src + 15) by lia.
  rewrite R0, R1, R2, R3, R4, R5, R6, R7. unfold arm_code. cbn [le app nth]. unfold word.
  pose proof (unle_le 8 dst) as U. rewrite N.mod_small in U by (exact Hd). cbn [le unle] in U.
  rewrite <- U at 9. clear. lia.
Qed.
Ltac Zify.zify_post_hook ::= idtac.

(** ** C18 *)
Definition cnt (fp : N) (l : list (N * stub)) : N := N.of_nat (length (filter (fun x => t_source (snd x) =? fp) l)).
Lemma cnt_app : forall fp a b, cnt fp (a ++ b) = cnt fp a + cnt fp b.
Proof. intros. unfold cnt. rewrite filter_app, app_length. lia. Qed.
Lemma cnt_cons : forall fp x l, cnt fp (x :: l) = (if t_source (snd x) =? fp then 1 else 0) + cnt fp l.
Proof. intros. unfold cnt. cbn [filter]. destruct (t_source (snd x) =? fp); cbn [length]; lia. Qed.
Lemma cnt_pos : forall fp l, 1 <= cnt fp l <-> exists sc t, In (sc, t) l /\ t_source t = fp.
Proof.
  intros fp l. induction l as [|[sc t] l IH].
  - unfold cnt. simpl. split; [lia|]. intros (sc & t & [] & _).
  - rewrite cnt_cons. cbn [snd]. destruct (N.eqb_spec (t_source t) fp) as [E|E].
    + split; [|lia]. intros _. exists sc, t. split; auto. left. auto.
    + rewrite N.add_0_l, IH. split; intros (sc' & t' & A & B).
      * exists sc', t'. split; auto. right. auto.
      * exists sc', t'. split; auto. destruct A as [A|A]; auto. injection A as <- <-. contradiction.
Qed.

Record Inv (m : mem) (st : state) : Prop := mkInv {
  I_code : forall x, (forall s, In s (sources st) -> ~ prefix (s_fp s) x) -> code st x = m x;
  I_nodup : NoDup (map s_fp (sources st));
  I_apart : forall s s', In s (sources st) -> In s' (sources st) -> apart (s_fp s) (s_fp s');
  I_src : forall s, In s (sources st) -> s_origin s = get m (s_fp s) 12 /\ s_ref s = cnt (s_fp s) (stubs st) /\ 1 <= s_ref s;
  I_stub : forall sc t, In (sc, t) (stubs st) -> In (t_source t) (map s_fp (sources st)) /\ length (t_saved t) = 12%nat }.

Lemma take_spec : forall f l t r, take f l = Some (t, r) ->
  exists l1 sc l2, l = l1 ++ (sc, t) :: l2 /\ r = l1 ++ l2 /\ f (sc, t) = true /\ forall y, In y l1 -> f y = false.
Proof.
  induction l as [|[sc0 t0] l IH]; cbn [take]; intros t r H; [discriminate|]. destruct (f (sc0, t0)) eqn:E.
  - injection H as <- <-. exists [], sc0, l. cbn. repeat split; auto. intros y [].
  - destruct (take f l) as [[t1 r1]|] eqn:T; [|discriminate]. injection H as <- <-.
    destruct (IH _ _ eq_refl) as (l1 & sc & l2 & A & B & C & D). exists ((sc0, t0) :: l1), sc, l2. subst. repeat split; auto.
    intros y [<-|Hy]; auto.
Qed.
Lemma take_none : forall f l, take f l = None -> forall y, In y l -> f y = false.
Proof.
  induction l as [|[sc0 t0] l IH]; cbn [take]; intros H y Hy; [destruct Hy|]. destruct (f (sc0, t0)) eqn:E; [discriminate|].
  destruct (take f l) as [[t1 r1]|]; [discriminate|]. destruct Hy as [<-|Hy]; auto.
Qed.

Lemma find_source_spec : forall st fp, match find_source st fp with
  | Some s => In s (sources st) /\ s_fp s = fp
  | None => ~ In fp (map s_fp (sources st)) end.
Proof.
  intros st fp. unfold find_source. destruct (find _ _) as [s|] eqn:E.
  - apply find_some in E. destruct E as [A B]. apply N.eqb_eq in B. auto.
  - intro H. apply in_map_iff in H. destruct H as (s & A & B). pose proof (find_none _ _ E s B) as C. cbn in C. apply N.eqb_neq in C. auto.
Qed.

Lemma set_ref_fps : forall l fp f, map s_fp (set_ref l fp f) = map s_fp l.
Proof. intros. unfold set_ref. rewrite map_map. apply map_ext. intro s. destruct (s_fp s =? fp); auto. Qed.
Lemma in_set_ref : forall l fp f s, In s (set_ref l fp f) ->
  exists s0, In s0 l /\ s_fp s = s_fp s0 /\ s_origin s = s_origin s0 /\ s_ref s = (if s_fp s0 =? fp then f (s_ref s0) else s_ref s0).
Proof.
  intros l fp f s H. unfold set_ref in H. apply in_map_iff in H. destruct H as (s0 & A & B). exists s0. split; auto.
  subst s. destruct (s_fp s0 =? fp); auto.
Qed.
Lemma in_fps : forall s l, In s l -> In (s_fp s) (map s_fp l).
Proof. intros. apply in_map. auto. Qed.

Lemma Inv_apart_fp : forall m st a b, Inv m st -> In a (map s_fp (sources st)) -> In b (map s_fp (sources st)) -> apart a b.
Proof.
  intros m st a b I A B. apply in_map_iff in A, B. destruct A as (s & <- & A). destruct B as (s' & <- & B). apply (I_apart _ _ I); auto.
Qed.

(** deleting a stub whose object was just unlinked *)
Lemma delete_inv : forall m c ss l1 sc t l2, Inv m (mkstate c ss (l1 ++ (sc, t) :: l2)) ->
  Inv m (stub_delete (mkstate c ss (l1 ++ l2)) t).
Proof.
  intros m c ss l1 sc t l2 I. destruct I as [I1 I2 I3 I4 I5]. cbn [code sources stubs] in *.
  unfold stub_delete, source_del. cbn [code sources stubs].
  destruct (I5 sc t) as [Hfp Hlen]; [apply in_elt|].
  pose proof (find_source_spec (mkstate (e9_reset c (t_source t) (t_saved t)) ss (l1 ++ l2)) (t_source t)) as F.
  destruct (find_source _ _) as [s|]; [|contradiction]. destruct F as [F1 F2]. cbn [sources] in F1.
  destruct (I4 s F1) as (O1 & O2 & O3).
  assert (C : forall fp, cnt fp (l1 ++ (sc, t) :: l2) = (if t_source t =? fp then 1 else 0) + cnt fp (l1 ++ l2)).
  { intro fp. rewrite !cnt_app, cnt_cons. cbn [snd]. lia. }
  assert (Hx : forall x, ~ prefix (t_source t) x -> e9_reset c (t_source t) (t_saved t) x = c x).
  { intros x Hx. apply put_out. rewrite Hlen. exact Hx. }
  assert (Hin : forall y, In y (l1 ++ l2) -> In y (l1 ++ (sc, t) :: l2)).
  { intros y Hy. apply in_app_or in Hy. apply in_or_app. destruct Hy; auto. right. right. auto. }
  rewrite C, F2, N.eqb_refl in O2.
  destruct (N.eqb_spec (s_ref s - 1) 0) as [Z|Z]; constructor; cbn [code sources stubs].
  - intros x Hn. destruct (N.leb_spec (t_source t) x) as [P|P].
    + destruct (N.ltb_spec x (t_source t + 12)) as [Q|Q].
      * unfold e9_reset at 1. rewrite O1, F2. replace x with (t_source t + N.of_nat (N.to_nat (x - t_source t))) by lia.
        rewrite put_in by (rewrite get_length; lia). rewrite nth_get by lia. reflexivity.
      * unfold e9_reset at 1. rewrite put_out by (rewrite O1, get_length; cbn; lia). rewrite Hx by (unfold prefix; lia).
        apply I1. intros s' Hs' Hp. destruct (N.eq_dec (s_fp s') (t_source t)) as [E|E]; [unfold prefix in Hp; lia|].
        apply (Hn s'); auto. apply filter_In. split; auto. apply N.eqb_neq in E. rewrite E. auto.
    + unfold e9_reset at 1. rewrite put_out by (rewrite O1, get_length; cbn; lia). rewrite Hx by (unfold prefix; lia).
      apply I1. intros s' Hs' Hp. destruct (N.eq_dec (s_fp s') (t_source t)) as [E|E]; [unfold prefix in Hp; lia|].
      apply (Hn s'); auto. apply filter_In. split; auto. apply N.eqb_neq in E. rewrite E. auto.
  - clear -I2. induction ss as [|a ss IH]; cbn [filter map]; auto. inversion I2; subst.
    destruct (negb (s_fp a =? t_source t)); auto. cbn [map]. constructor; auto.
    intro H. apply H1. apply in_map_iff in H. destruct H as (s & A & B). apply filter_In in B. rewrite <- A. apply in_map. tauto.
  - intros a b Ha Hb. apply filter_In in Ha, Hb. apply I3; tauto.
  - intros a Ha. apply filter_In in Ha. destruct Ha as [Ha Hne]. apply negb_true_iff, N.eqb_neq in Hne.
    destruct (I4 a Ha) as (A & B & D). split; auto. rewrite B in *. rewrite C in *. destruct (N.eqb_spec (t_source t) (s_fp a)); [congruence|].
    rewrite N.add_0_l in *. auto.
  - intros sc' t' H'. destruct (I5 sc' t' (Hin _ H')) as [A B]. split; auto.
    assert (Hne : t_source t' <> t_source t).
    { intro E. assert (1 <= cnt (t_source t) (l1 ++ l2)) by (apply cnt_pos; exists sc', t'; auto). lia. }
    apply in_map_iff in A. destruct A as (s' & A1 & A2). apply in_map_iff. exists s'. split; auto. apply filter_In. split; auto.
    rewrite A1. apply N.eqb_neq in Hne. rewrite Hne. auto.
  - intros x Hn. assert (Hn' : forall s', In s' ss -> ~ prefix (s_fp s') x).
    { intros s' Hs'. apply in_fps in Hs'. rewrite <- (set_ref_fps ss (t_source t) (fun r => r - 1)) in Hs'. apply in_map_iff in Hs'.
      destruct Hs' as (s2 & <- & B). auto. }
    rewrite Hx; [auto|]. rewrite <- F2. auto.
  - rewrite set_ref_fps. auto.
  - intros a b Ha Hb. apply in_set_ref in Ha, Hb. destruct Ha as (a0 & A1 & A2 & _). destruct Hb as (b0 & B1 & B2 & _). rewrite A2, B2. auto.
  - intros a Ha. apply in_set_ref in Ha. destruct Ha as (a0 & A1 & A2 & A3 & A4). destruct (I4 a0 A1) as (X & Y & W).
    rewrite A2, A3, A4. split; auto. rewrite C in Y. rewrite (N.eqb_sym (t_source t)) in Y.
    destruct (N.eqb_spec (s_fp a0) (t_source t)) as [E|E].
    + assert (a0 = s).
      { clear -I2 A1 F1 E F2. induction ss as [|z ss IH]; [destruct A1|]. inversion I2; subst.
        destruct A1 as [->|A1], F1 as [->|F1]; auto.
        - exfalso. apply H1. apply in_map_iff. exists s. split; auto. congruence.
        - exfalso. apply H1. apply in_map_iff. exists a0. split; auto. congruence. }
      subst a0. lia.
    + lia.
  - intros sc' t' H'. rewrite set_ref_fps. apply (I5 sc' t'). auto.
Qed.

Lemma clear_loop_inv : forall n m st scope, Inv m st -> Inv m (clear_loop n st scope).
Proof.
  induction n as [|n IH]; intros m st scope I; cbn [clear_loop]; auto.
  destruct (take _ (stubs st)) as [[t r]|] eqn:T; auto. apply take_spec in T. destruct T as (l1 & sc & l2 & A & B & _).
  apply IH. subst r. apply (delete_inv m (code st) (sources st) l1 sc t l2). rewrite <- A. destruct st; auto.
Qed.

Lemma in_source_stubbed : forall m st fp, Inv m st -> (In fp (map s_fp (sources st)) <-> stubbed st fp).
Proof.
  intros m st fp I. split.
  - intro H. apply in_map_iff in H. destruct H as (s & <- & Hs). destruct (I_src _ _ I s Hs) as (_ & A & B). rewrite A in B. apply cnt_pos in B. exact B.
  - intros (sc & t & H & <-). apply (I_stub _ _ I _ _ H).
Qed.

Lemma stubs_get_spec : forall st scope src, match stubs_get st scope src with
  | Some t => In (scope, t) (stubs st) /\ t_src t = src
  | None => forall t, In (scope, t) (stubs st) -> t_src t <> src end.
Proof.
  intros st scope src. unfold stubs_get. destruct (find _ _) as [[sc t]|] eqn:E; cbn [option_map snd].
  - apply find_some in E. destruct E as [A B]. unfold is_stub in B. cbn [fst snd] in B. apply andb_true_iff in B. rewrite !N.eqb_eq in B.
    destruct B as [-> ->]. auto.
  - intros t Ht C. pose proof (find_none _ _ E _ Ht) as D. unfold is_stub in D. cbn [fst snd] in D. rewrite N.eqb_refl, C, N.eqb_refl in D. discriminate.
Qed.

Lemma set_inv : forall m c ss ts fp dst, Inv m (mkstate c ss ts) -> In fp (map s_fp ss) -> Inv m (mkstate (e9_set c fp dst) ss ts).
Proof.
  intros m c ss ts fp dst I H. destruct I as [I1 I2 I3 I4 I5]. constructor; auto. cbn [code sources stubs] in *.
  intros x Hn. rewrite patch_frame; auto. apply in_map_iff in H. destruct H as (s & <- & Hs). auto.
Qed.

Lemma add_inv : forall m st scope src dst, Inv m st -> allowed st (Add scope src dst) -> Inv m (stub_add st scope src dst).
Proof.
  intros m st scope src dst I (_ & _ & Ap). unfold stub_add.
  pose proof (stubs_get_spec st scope src) as G. destruct (stubs_get st scope src) as [t|].
  - destruct G as [G _]. apply set_inv; [destruct st; auto|]. apply (I_stub _ _ I _ _ G).
  - unfold source_add. set (sfp := follow st src) in *. cbn [code sources stubs].
    assert (Ap' : forall s, In s (sources st) -> apart (s_fp s) sfp).
    { intros s Hs. apply Ap. apply (in_source_stubbed m st); auto. apply in_fps. auto. }
    pose proof (find_source_spec st sfp) as F.
    set (l := match find_source st sfp with Some _ => sources st | None => mksource sfp (e9_save (code st) sfp) 0 :: sources st end).
    assert (L : map s_fp l = map s_fp (sources st) /\ In sfp (map s_fp l) \/ map s_fp l = sfp :: map s_fp (sources st) /\ ~ In sfp (map s_fp (sources st))).
    { unfold l. destruct (find_source st sfp) as [s|]; [left|right]; split; auto. destruct F as [F1 <-]. apply in_map. auto. }
    apply set_inv.
    2:{ rewrite set_ref_fps. destruct L as [[A B]|[A B]]; [auto|]. rewrite A. left. auto. }
    destruct I as [I1 I2 I3 I4 I5].
    assert (Q : forall s, In s l -> In s (sources st) \/ s = mksource sfp (e9_save (code st) sfp) 0 /\ ~ In sfp (map s_fp (sources st))).
    { intros s Hs. unfold l in Hs. destruct (find_source st sfp); auto. destruct Hs as [<-|Hs]; auto. }
    assert (Qfp : forall fp, In fp (map s_fp (sources st)) -> In fp (map s_fp l)).
    { intros fp H. destruct L as [[A B]|[A B]]; rewrite A; auto. right. auto. }
    constructor; cbn [code sources stubs].
    + intros x Hn. apply I1. intros s Hs. apply in_fps in Hs. apply Qfp in Hs. rewrite <- (set_ref_fps l sfp (fun r => r + 1)) in Hs.
      apply in_map_iff in Hs. destruct Hs as (s' & <- & Hs'). auto.
    + rewrite set_ref_fps. destruct L as [[A B]|[A B]]; rewrite A; auto. constructor; auto.
    + intros a b Ha Hb. apply in_set_ref in Ha, Hb. destruct Ha as (a0 & A1 & A2 & _). destruct Hb as (b0 & B1 & B2 & _). rewrite A2, B2.
      destruct (Q _ A1) as [Qa|[-> _]]; destruct (Q _ B1) as [Qb|[-> _]]; cbn [s_fp]; auto.
      * destruct (Ap' _ Qb) as [E|[E|E]]; unfold apart; auto.
      * left. auto.
    + intros a Ha. apply in_set_ref in Ha. destruct Ha as (a0 & A1 & A2 & A3 & A4). rewrite A2, A3, A4.
      rewrite cnt_cons. cbn [snd t_source]. destruct (Q _ A1) as [Qa|[-> Hnew]]; cbn [s_fp s_origin s_ref].
      * destruct (I4 _ Qa) as (X & Y & Z). split; auto. rewrite (N.eqb_sym sfp). destruct (s_fp a0 =? sfp); lia.
      * rewrite N.eqb_refl. split.
        -- unfold e9_save. apply get_ext. intros i Hi. apply I1. intros s Hs Hp. destruct (Ap' _ Hs) as [E|E].
           ++ apply Hnew. rewrite <- E. apply in_map. auto.
           ++ unfold prefix in Hp. unfold e9_size in Hi. lia.
        -- assert (Z : cnt sfp (stubs st) = 0).
           { destruct (N.eq_0_gt_0_cases (cnt sfp (stubs st))) as [|P]; auto. exfalso. apply Hnew.
             assert (P1 : 1 <= cnt sfp (stubs st)) by lia. apply cnt_pos in P1. destruct P1 as (sc & t & T1 & <-). apply (I5 _ _ T1). }
           lia.
    + rewrite set_ref_fps. intros sc t [E|Ht].
      * injection E as <- <-. cbn [t_source t_saved]. split; [|apply get_length]. destruct L as [[A B]|[A B]]; auto. rewrite A. left. auto.
      * destruct (I5 _ _ Ht) as [X Y]. auto.
Qed.

Lemma reach_inv : forall m st, reach m st -> Inv m st.
Proof.
  intros m st H. induction H as [|st e H IH A].
  - constructor; cbn; auto; try constructor; try contradiction.
  - destruct e as [scope src dst|scope src|scope]; cbn [step].
    + apply add_inv; auto.
    + unfold stub_clear. destruct (take _ (stubs st)) as [[t r]|] eqn:T; auto. apply take_spec in T. destruct T as (l1 & sc & l2 & X & Y & _).
      subst r. apply (delete_inv m (code st) (sources st) l1 sc t l2). rewrite <- X. destruct st; auto.
    + apply clear_loop_inv. auto.
Qed.

Lemma unstubbed_original : forall m st x, reach m st -> (forall fp, stubbed st fp -> ~ prefix fp x) -> code st x = m x.
Proof.
  intros m st x H N. pose proof (reach_inv m st H) as I. apply (I_code _ _ I). intros s Hs. apply N. apply (in_source_stubbed m st); auto. apply in_fps. auto.
Qed.
Lemma all_removed : forall m st, reach m st -> stubs st = [] -> sources st = [] /\ forall x, code st x = m x.
Proof.
  intros m st H E. pose proof (reach_inv m st H) as I. assert (sources st = []).
  { destruct (sources st) as [|s l] eqn:Es; auto. exfalso.
    destruct (I_src _ _ I s) as (_ & A & B); [rewrite Es; left; auto|]. rewrite A, E in B. unfold cnt in B. simpl in B. lia. }
  split; auto. intro x. apply (unstubbed_original m st x H). intros fp (sc & t & T & _). rewrite E in T. destruct T.
Qed.

(** ** temporary restore *)
Lemma temporary : forall m st src junk, reach m st ->
  let r := temporary_begin st src in
  (forall x, prefix (follow st src) x -> stubbed st (follow st src) -> code (fst r) x = m x) /\
  (follow (fst r) src = follow st src -> forall x, code (temporary_end (fst r) src (snd r) junk) x = code st x).
Proof.
  intros m st src junk H. pose proof (reach_inv m st H) as I. unfold temporary_begin.
  pose proof (find_source_spec st (follow st src)) as F. destruct (find_source st (follow st src)) as [s|] eqn:E; cbv zeta; cbn [fst snd].
  - destruct F as [F1 F2]. destruct (I_src _ _ I s F1) as (O1 & _). split.
    + intros x [P1 P2] _. cbn [code]. unfold e9_reset. rewrite O1. rewrite <- F2 in P1, P2.
      replace x with (s_fp s + N.of_nat (N.to_nat (x - s_fp s))) by lia. rewrite put_in by (rewrite get_length; lia). rewrite nth_get by lia. auto.
    + intros Hf x. unfold temporary_end. rewrite Hf. unfold find_source in *. cbn [sources]. rewrite E. cbn [code].
      apply save_reset. intros y Hy. apply put_out. rewrite O1, get_length. exact Hy.
  - split.
    + intros x _ S. exfalso. apply F. apply (in_source_stubbed m st); auto.
    + intros _ x. unfold temporary_end. rewrite E. auto.
Qed.
