From Coq Require Import List ZArith Bool Arith Lia Permutation.
From Verif Require Import SharedPtrModel SharedPtrSpec.
Import ListNotations.

Definition points (c : nat) (v : sp) : bool := match pn v with Some c' => Nat.eqb c c' | None => false end.
Fixpoint refs (c : nat) (vs : list sp) : nat :=
  match vs with [] => 0 | v :: r => (if points c v then 1 else 0) + refs c r end.

Lemma refs_perm : forall c a b, Permutation a b -> refs c a = refs c b.
Proof. induction 1; simpl; lia. Qed.

Lemma refs_In : forall c vs v, In v vs -> pn v = Some c -> 1 <= refs c vs.
Proof.
  induction vs as [|a vs IH]; simpl; intros v H E; [destruct H|].
  destruct H as [->|H].
  - unfold points. rewrite E, Nat.eqb_refl. lia.
  - specialize (IH _ H E). lia.
Qed.

Lemma refs_pos : forall c vs, 1 <= refs c vs -> exists v, In v vs /\ pn v = Some c.
Proof.
  induction vs as [|a vs IH]; simpl; intro H; [lia|].
  unfold points in H. destruct (pn a) as [c'|] eqn:E.
  - destruct (Nat.eqb_spec c c').
    + subst. exists a. auto.
    + destruct IH as (v & A & B); [lia|]. exists v. auto.
  - destruct IH as (v & A & B); [lia|]. exists v. auto.
Qed.

(** managed: objects handed over so far; own: object of a counter; vs: all handle values including temporaries *)
Record Inv (m : mem) (managed : list nat) (own : nat -> nat) (vs : list sp) : Prop := mkInv {
  i_val : forall v, In v vs -> (px v = None /\ pn v = None) \/ exists c, pn v = Some c /\ px v = Some (own c) /\ cnt m c <> None;
  i_cnt : forall c k, cnt m c = Some k -> k = Z.of_nat (refs c vs) /\ 1 <= refs c vs /\ c < fresh m /\ In (own c) managed /\ ~ In (own c) (deleted m);
  i_inj : forall c c', cnt m c <> None -> cnt m c' <> None -> own c = own c' -> c = c';
  i_mng : forall o, In o managed -> In o (deleted m) \/ exists c, cnt m c <> None /\ own c = o;
  i_del : NoDup (deleted m) /\ incl (deleted m) managed
}.

Lemma inv_perm : forall m g own a b, Permutation a b -> Inv m g own a -> Inv m g own b.
Proof.
  intros m g own a b P [A B C D E]. split; auto.
  - intros v Hv. apply A. apply (Permutation_in _ (Permutation_sym P)). auto.
  - intros c k H. rewrite <- (refs_perm c _ _ P). auto.
Qed.

Lemma inv_acquire_null : forall m g own vs, Inv m g own vs -> Inv m g own (sp_null :: vs).
Proof.
  intros m g own vs [A B C D E]. split; auto. intros v [<-|Hv]; auto.
Qed.

Lemma inv_acquire_copy : forall m g own vs w, Inv m g own vs -> In w vs ->
  exists m', acquire m (px w) (pn w) = Some (m', w) /\ Inv m' g own (w :: vs) /\ deleted m' = deleted m.
Proof.
  intros m g own vs w I Hw. destruct (i_val _ _ _ _ I w Hw) as [[E1 E2]|(c & E1 & E2 & E3)].
  - destruct w as [p n]. simpl in *. subst. exists m. split; auto. split; auto. apply inv_acquire_null. auto.
  - unfold acquire. rewrite E1, E2. destruct (cnt m c) as [k|] eqn:Ek; [|contradiction].
    exists (set_cnt m c (Some (k + 1)%Z)). split; [destruct w; simpl in *; congruence|]. split; auto.
    destruct I as [A B C D E].
    assert (Hc : forall x, cnt (set_cnt m c (Some (k + 1)%Z)) x <> None <-> cnt m x <> None).
    { intro x. simpl. destruct (Nat.eqb_spec x c); [subst|tauto]. rewrite Ek. split; discriminate. }
    split.
    + intros v [<-|Hv].
      * right. exists c. rewrite Hc. repeat split; congruence.
      * destruct (A v Hv) as [?|(c' & ? & ? & ?)]; auto. right. exists c'. rewrite Hc. auto.
    + intros c' k' H. simpl in H. cbn [refs]. unfold points. rewrite E1. cbn [fresh deleted set_cnt].
      destruct (Nat.eqb_spec c' c).
      * inversion H; subst. destruct (B _ _ Ek) as (B1 & B2 & B3 & B4 & B5). repeat split; auto; lia.
      * destruct (B _ _ H) as (B1 & B2 & B3 & B4 & B5). repeat split; auto; lia.
    + intros x y Hx Hy. rewrite Hc in Hx, Hy. auto.
    + intros o Ho. destruct (D o Ho) as [?|(x & ? & ?)]; auto. right. exists x. rewrite Hc. auto.
    + auto.
Qed.

Lemma inv_acquire_new : forall m g own vs o, Inv m g own vs -> ~ In o g ->
  exists m' v own', acquire m (Some o) None = Some (m', v) /\ Inv m' (o :: g) own' (v :: vs) /\ deleted m' = deleted m.
Proof.
  intros m g own vs o I Ho. unfold acquire.
  set (f := fresh m).
  exists (mkmem (fun x => if Nat.eqb x f then Some 1%Z else cnt m x) (deleted m) (S f)), (mksp (Some o) (Some f)),
    (fun x => if Nat.eqb x f then o else own x).
  split; auto. split; auto. destruct I as [A B C D [E1 E2]].
  assert (Hf : cnt m f = None).
  { destruct (cnt m f) as [k|] eqn:E; auto. destruct (B _ _ E) as (_ & _ & B3 & _). unfold f in B3. lia. }
  assert (Hr : refs f vs = 0).
  { destruct (refs f vs) eqn:E; auto. destruct (refs_pos f vs) as (v & V1 & V2); [lia|].
    destruct (A v V1) as [[_ ?]|(c & V3 & _ & V4)]; congruence. }
  assert (Hod : ~ In o (deleted m)) by (intro; apply Ho, E2; auto).
  split; cbn [cnt deleted fresh].
  - intros v [<-|Hv].
    + right. exists f. simpl. rewrite !Nat.eqb_refl. repeat split; auto. discriminate.
    + destruct (A v Hv) as [?|(c & V1 & V2 & V3)]; auto. right. exists c. destruct (Nat.eqb_spec c f); [subst; congruence|auto].
  - intros c k H. cbn [refs]. unfold points. cbn [pn]. destruct (Nat.eqb_spec c f).
    + inversion H; subst. rewrite Hr. simpl. repeat split; auto.
    + destruct (B _ _ H) as (B1 & B2 & B3 & B4 & B5). repeat split; auto; try lia. right. auto.
  - intros x y Hx Hy. destruct (Nat.eqb_spec x f), (Nat.eqb_spec y f); subst; auto.
    + intro Q. destruct (cnt m y) eqn:E; [|contradiction]. destruct (B _ _ E) as (_ & _ & _ & B4 & _). exfalso. apply Ho. congruence.
    + intro Q. destruct (cnt m x) eqn:E; [|contradiction]. destruct (B _ _ E) as (_ & _ & _ & B4 & _). exfalso. apply Ho. congruence.
  - intros z [<-|Hz].
    + right. exists f. rewrite Nat.eqb_refl. split; auto. discriminate.
    + destruct (D z Hz) as [?|(c & ? & ?)]; auto. right. exists c. destruct (Nat.eqb_spec c f); [subst; congruence|auto].
  - split; auto. intros z Hz. right. auto.
Qed.

Lemma existsb_false : forall o l, ~ In o l -> existsb (Nat.eqb o) l = false.
Proof.
  intros o l H. destruct (existsb (Nat.eqb o) l) eqn:E; auto. apply existsb_exists in E.
  destruct E as (x & Hx & Hy). apply Nat.eqb_eq in Hy. subst. contradiction.
Qed.

Lemma inv_release : forall m g own v vs, Inv m g own (v :: vs) ->
  exists m', release m v = Some m' /\ Inv m' g own vs.
Proof.
  intros m g own v vs I. unfold release.
  destruct (i_val _ _ _ _ I v (or_introl eq_refl)) as [[E1 E2]|(c & E1 & E2 & E3)].
  - rewrite E2. exists m. split; auto. destruct I as [A B C D E]. split; auto.
    + intros w Hw. apply A. right. auto.
    + intros c k H. destruct (B c k H) as (B1 & B2 & B3). cbn [refs] in B1, B2. unfold points in B1, B2. rewrite E2 in B1, B2. auto.
  - rewrite E1. destruct (cnt m c) as [k|] eqn:Ek; [|contradiction].
    destruct I as [A B C D [F1 F2]]. destruct (B _ _ Ek) as (B1 & B2 & B3 & B4 & B5).
    cbn [refs] in B1, B2. unfold points in B1, B2. rewrite E1, Nat.eqb_refl in B1, B2.
    assert (Hoth : forall c', c' <> c -> refs c' (v :: vs) = refs c' vs).
    { intros c' Hc'. cbn [refs]. unfold points. rewrite E1. apply Nat.eqb_neq in Hc'. rewrite Hc'. auto. }
    destruct (Z.eqb_spec (k - 1) 0).
    + rewrite E2. rewrite existsb_false by auto. eexists. split; [reflexivity|].
      assert (Hz : refs c vs = 0) by lia.
      split; cbn [cnt deleted fresh].
      * intros w Hw. destruct (A w (or_intror Hw)) as [?|(c' & V1 & V2 & V3)]; auto. right. exists c'.
        destruct (Nat.eqb_spec c' c); [|auto]. subst. pose proof (refs_In _ _ _ Hw V1). lia.
      * intros c' k' H. destruct (Nat.eqb_spec c' c); [discriminate|].
        destruct (B _ _ H) as (G1 & G2 & G3 & G4 & G5). rewrite Hoth in G1, G2 by auto. repeat split; auto.
        intros [E|Hi]; [|auto]. apply n. symmetry. apply C; congruence.
      * intros x y Hx Hy. destruct (Nat.eqb_spec x c); [contradiction|]. destruct (Nat.eqb_spec y c); [contradiction|]. auto.
      * intros o Ho. destruct (D o Ho) as [?|(x & X1 & X2)]; [left; right; auto|].
        destruct (Nat.eqb_spec x c); [subst; left; left; auto|]. right. exists x. apply Nat.eqb_neq in n. rewrite n. auto.
      * split; [constructor; auto|]. intros o [<-|Ho]; auto.
    + eexists. split; [reflexivity|].
      assert (Hc : forall x, cnt (set_cnt m c (Some (k - 1)%Z)) x <> None <-> cnt m x <> None).
      { intro x. simpl. destruct (Nat.eqb_spec x c); [subst|tauto]. rewrite Ek. split; discriminate. }
      split; auto.
      * intros w Hw. destruct (A w (or_intror Hw)) as [?|(c' & V1 & V2 & V3)]; auto. right. exists c'. rewrite Hc. auto.
      * intros c' k' H. simpl in H. cbn [fresh deleted set_cnt]. destruct (Nat.eqb_spec c' c).
        -- inversion H; subst. repeat split; auto; lia.
        -- destruct (B _ _ H) as (G1 & G2 & G3 & G4 & G5). rewrite Hoth in G1, G2 by auto. repeat split; auto.
      * intros x y Hx Hy. rewrite Hc in Hx, Hy. auto.
      * intros o Ho. destruct (D o Ho) as [?|(x & ? & ?)]; auto. right. exists x. rewrite Hc. auto.
Qed.

(** handle names *)
Lemma lookup_In : forall h l v, lookup h l = Some v -> In (h, v) l.
Proof.
  induction l as [|[n w] l IH]; simpl; intros v H; [discriminate|].
  destruct (Nat.eqb_spec n h); [inversion H; subst; auto|right; auto].
Qed.
Lemma lookup_none : forall h l, lookup h l = None <-> ~ In h (map fst l).
Proof.
  induction l as [|[n w] l IH]; simpl; [tauto|].
  destruct (Nat.eqb_spec n h); [subst; split; [discriminate|intro H; exfalso; auto]|].
  rewrite IH. tauto.
Qed.
Lemma lookup_remove_perm : forall h l v, lookup h l = Some v ->
  Permutation (map snd l) (v :: map snd (remove h l)).
Proof.
  induction l as [|[n w] l IH]; simpl; intros v H; [discriminate|].
  destruct (Nat.eqb_spec n h).
  - inversion H; subst. auto.
  - simpl. eapply Permutation_trans; [apply perm_skip, (IH _ H)|]. apply perm_swap.
Qed.
Lemma remove_names : forall h l, NoDup (map fst l) ->
  map fst (remove h l) = filter (fun n => negb (Nat.eqb n h)) (map fst l).
Proof.
  induction l as [|[n w] l IH]; simpl; intro N; auto. inversion N; subst.
  destruct (Nat.eqb_spec n h); simpl.
  - subst. symmetry. clear -H1. induction (map fst l) as [|a r IH]; simpl; auto.
    assert (a <> h) by (intros ->; apply H1; left; auto). apply Nat.eqb_neq in H. rewrite H. simpl. f_equal. apply IH.
    intro. apply H1. right. auto.
  - f_equal. auto.
Qed.
Lemma filter_NoDup : forall (f : nat -> bool) l, NoDup l -> NoDup (filter f l).
Proof. intros. apply NoDup_filter. auto. Qed.

Lemma mem_true : forall h ns, existsb (Nat.eqb h) ns = true <-> In h ns.
Proof.
  intros. rewrite existsb_exists. split.
  - intros (x & A & B). apply Nat.eqb_eq in B. subst. auto.
  - intro. exists h. rewrite Nat.eqb_refl. auto.
Qed.
Lemma mem_false : forall h ns, existsb (Nat.eqb h) ns = false <-> ~ In h ns.
Proof. intros. rewrite <- mem_true. destruct (existsb _ _); split; intros; try easy; congruence. Qed.

Definition SInv (st : state) (managed : list nat) : Prop :=
  exists own, Inv (mm st) managed own (map snd (handles st)) /\ NoDup (map fst (handles st)).

(** names in scope as a set *)
Definition same_names (st : state) (ns : list nat) : Prop := forall n, In n (map fst (handles st)) <-> In n ns.

Lemma lookup_some : forall h l, In h (map fst l) -> exists v, lookup h l = Some v.
Proof.
  intros h l H. destruct (lookup h l) as [v|] eqn:E; eauto. apply lookup_none in E. contradiction.
Qed.

Lemma names_remove : forall h l n, NoDup (map fst l) -> (In n (map fst (remove h l)) <-> In n (map fst l) /\ n <> h).
Proof.
  intros. rewrite remove_names by auto. rewrite filter_In. rewrite negb_true_iff, Nat.eqb_neq. tauto.
Qed.

Lemma step_inv : forall st g ns ns' o, SInv st g -> same_names st ns -> scope1 ns o = Some ns' ->
  (forall x, In x (adopts o) -> ~ In x g) ->
  exists st', step st o = Some st' /\ SInv st' (adopts o ++ g) /\ same_names st' ns'.
Proof.
  intros st g ns ns' o (own & I & N) S Hs Ha. destruct st as [m hs]. cbn [mm handles] in *.
  unfold same_names in S. cbn [handles] in S.
  assert (Hreplace : forall g' own' old that m1 h, lookup h hs = Some old ->
     Inv m1 g' own' (that :: map snd hs) ->
     exists m', release m1 old = Some m' /\ SInv (mkst m' ((h, that) :: remove h hs)) g' /\
                same_names (mkst m' ((h, that) :: remove h hs)) ns).
  { intros g' own' old that m1 h L I1.
    assert (P : Permutation (that :: map snd hs) (old :: that :: map snd (remove h hs))).
    { eapply Permutation_trans; [apply perm_skip, (lookup_remove_perm _ _ _ L)|]. apply perm_swap. }
    destruct (inv_release _ _ _ _ _ (inv_perm _ _ _ _ _ P I1)) as (m' & R & I').
    exists m'. split; auto. split.
    - exists own'. split; auto. simpl. constructor; [|rewrite remove_names; auto; apply filter_NoDup; auto].
      rewrite names_remove by auto. tauto.
    - intro n. cbn [handles map fst In]. rewrite names_remove by auto. rewrite <- S.
      apply lookup_In in L. apply (in_map fst) in L. simpl in L. split.
      + intros [<-|[? ?]]; auto.
      + intro. destruct (Nat.eq_dec h n); auto. }
  destruct o as [h [x|]|h w|h w|h x|h|h]; cbn [scope1 adopts app] in *; cbn [step mm handles].
  - (* New object *)
    destruct (existsb (Nat.eqb h) ns) eqn:E; [discriminate|]. inversion Hs; subst. apply mem_false in E. rewrite <- S in E.
    assert (L := E). apply lookup_none in L. rewrite L.
    destruct (inv_acquire_new _ _ _ _ x I (Ha x (or_introl eq_refl))) as (m' & v & own' & A & I' & _).
    rewrite A. eexists. split; [reflexivity|]. split.
    + exists own'. split; auto. simpl. constructor; auto.
    + intro n. cbn [handles map fst In]. rewrite S. tauto.
  - (* New null *)
    destruct (existsb (Nat.eqb h) ns) eqn:E; [discriminate|]. inversion Hs; subst. apply mem_false in E. rewrite <- S in E.
    assert (L := E). apply lookup_none in L. rewrite L.
    eexists. split; [reflexivity|]. split.
    + exists own. split; [apply inv_acquire_null; auto|]. simpl. constructor; auto.
    + intro n. cbn [handles map fst In]. rewrite S. tauto.
  - (* Copy *)
    destruct (existsb (Nat.eqb h) ns) eqn:E; [discriminate|]. destruct (existsb (Nat.eqb w) ns) eqn:E2; [|discriminate].
    inversion Hs; subst. apply mem_false in E. rewrite <- S in E. apply mem_true in E2. rewrite <- S in E2.
    assert (L := E). apply lookup_none in L. rewrite L. destruct (lookup_some _ _ E2) as (v & V). rewrite V.
    assert (Hv : In v (map snd hs)) by (apply lookup_In in V; apply (in_map snd) in V; auto).
    destruct (inv_acquire_copy _ _ _ _ _ I Hv) as (m' & A & I' & _). rewrite A. eexists. split; [reflexivity|]. split.
    + exists own. split; auto. simpl. constructor; auto.
    + intro n. cbn [handles map fst In]. rewrite S. tauto.
  - (* Assign *)
    destruct (existsb (Nat.eqb h) ns) eqn:E; [|discriminate]. destruct (existsb (Nat.eqb w) ns) eqn:E2; [|discriminate].
    inversion Hs; subst. apply mem_true in E. rewrite <- S in E. apply mem_true in E2. rewrite <- S in E2.
    destruct (lookup_some _ _ E) as (old & L). rewrite L. destruct (lookup_some _ _ E2) as (v & V). rewrite V.
    assert (Hv : In v (map snd hs)) by (apply lookup_In in V; apply (in_map snd) in V; auto).
    destruct (inv_acquire_copy _ _ _ _ _ I Hv) as (m' & A & I' & _). rewrite A.
    destruct (Hreplace g own old v m' h L I') as (m2 & R & X1 & X2). rewrite R. eexists. split; [reflexivity|]. auto.
  - (* AssignNew *)
    destruct (existsb (Nat.eqb h) ns) eqn:E; [|discriminate].
    inversion Hs; subst. apply mem_true in E. rewrite <- S in E.
    destruct (lookup_some _ _ E) as (old & L). rewrite L.
    destruct (inv_acquire_new _ _ _ _ x I (Ha x (or_introl eq_refl))) as (m' & v & own' & A & I' & _). rewrite A.
    destruct (Hreplace (x :: g) own' old v m' h L I') as (m2 & R & X1 & X2). rewrite R. eexists. split; [reflexivity|]. auto.
  - (* Reset *)
    destruct (existsb (Nat.eqb h) ns) eqn:E; [|discriminate].
    inversion Hs; subst. apply mem_true in E. rewrite <- S in E.
    destruct (lookup_some _ _ E) as (old & L). rewrite L.
    destruct (Hreplace g own old sp_null m h L (inv_acquire_null _ _ _ _ I)) as (m2 & R & X1 & X2). rewrite R.
    eexists. split; [reflexivity|]. auto.
  - (* Drop *)
    destruct (existsb (Nat.eqb h) ns) eqn:E; [|discriminate].
    inversion Hs; subst. apply mem_true in E. rewrite <- S in E.
    destruct (lookup_some _ _ E) as (old & L). rewrite L.
    destruct (inv_release _ _ _ _ _ (inv_perm _ _ _ _ _ (lookup_remove_perm _ _ _ L) I)) as (m' & R & I').
    rewrite R. eexists. split; [reflexivity|]. split.
    + exists own. split; auto. simpl. rewrite remove_names; auto. apply filter_NoDup; auto.
    + intro n. cbn [handles]. rewrite names_remove by auto. rewrite S, filter_In, negb_true_iff, Nat.eqb_neq. tauto.
Qed.

Lemma NoDup_app_r : forall (a b : list nat), NoDup (a ++ b) -> NoDup b.
Proof. induction a as [|x a IH]; simpl; intros b H; auto. inversion H; auto. Qed.

Lemma run_inv : forall os st g ns, SInv st g -> same_names st ns -> scoped ns os ->
  NoDup (adopted os) -> (forall x, In x (adopted os) -> ~ In x g) ->
  exists st' g', run st os = Some st' /\ SInv st' g' /\ (forall x, In x g' <-> In x g \/ In x (adopted os)).
Proof.
  induction os as [|o os IH]; intros st g ns I S Sc N D.
  - exists st, g. split; auto. split; auto. intro x. simpl. tauto.
  - cbn [scoped] in Sc. destruct (scope1 ns o) as [ns'|] eqn:E; [|contradiction].
    change (adopted (o :: os)) with (adopts o ++ adopted os) in *.
    assert (N' := N). apply NoDup_app_r in N'.
    destruct (step_inv st g ns ns' o I S E) as (st1 & R1 & I1 & S1).
    { intros x Hx. apply D. apply in_or_app. auto. }
    destruct (IH st1 (adopts o ++ g) ns' I1 S1 Sc N') as (st' & g' & R2 & I2 & G).
    { intros x Hx Hg. apply in_app_or in Hg. destruct Hg as [Hg|Hg].
      - clear -N Hx Hg. induction (adopts o) as [|a l IHl]; [destruct Hg|]. simpl in N. inversion N; subst.
        destruct Hg as [->|Hg]; [apply H1; apply in_or_app; auto|auto].
      - apply (D x); auto. apply in_or_app. auto. }
    exists st', g'. cbn [run]. rewrite R1. split; auto. split; auto.
    intro x. rewrite G, !in_app_iff. tauto.
Qed.

Lemma sinv_init : SInv init [].
Proof.
  exists (fun x => x). split; [|constructor]. split; simpl; try easy. split; [constructor|intros x []].
Qed.

Lemma once_count : forall l x, NoDup l -> (In x l -> count_occ Nat.eq_dec l x = 1) /\ (~ In x l -> count_occ Nat.eq_dec l x = 0).
Proof.
  intros l x N. split; intro H.
  - apply NoDup_count_occ' with (decA := Nat.eq_dec) in H; auto.
  - apply count_occ_not_In. auto.
Qed.

Lemma destroyed_exactly_once : forall os, well_formed os ->
  exists st, run init os = Some st /\
    forall x, In x (adopted os) ->
      (held st x -> count_occ Nat.eq_dec (deleted (mm st)) x = 0) /\
      (~ held st x -> count_occ Nat.eq_dec (deleted (mm st)) x = 1).
Proof.
  intros os [Sc N].
  destruct (run_inv os init [] [] sinv_init) as (st & g & R & (own & I & Nd) & G); auto.
  { intro n. simpl. tauto. }
  exists st. split; auto. intros x Hx. destruct I as [A B C D [E1 E2]].
  split.
  - intros (h & v & Hin & Hv). apply once_count; auto. intro Hd.
    assert (Hv' : In v (map snd (handles st))) by (apply (in_map snd) in Hin; auto).
    destruct (A v Hv') as [[? _]|(c & V1 & V2 & V3)]; [congruence|].
    destruct (cnt (mm st) c) as [k|] eqn:Ek; [|contradiction]. destruct (B _ _ Ek) as (_ & _ & _ & _ & B5).
    apply B5. assert (own c = x) by congruence. congruence.
  - intro Hn. apply once_count; auto. destruct (D x) as [?|(c & C1 & C2)]; auto; [apply G; auto|].
    exfalso. apply Hn. destruct (cnt (mm st) c) as [k|] eqn:Ek; [|contradiction].
    destruct (B _ _ Ek) as (_ & B2 & _). destruct (refs_pos _ _ B2) as (v & V1 & V2).
    apply in_map_iff in V1. destruct V1 as ([h w] & W1 & W2). simpl in W1. subst w.
    exists h, v. split; auto.
    assert (Hv' : In v (map snd (handles st))) by (apply (in_map snd) in W2; auto).
    destruct (A v Hv') as [[_ ?]|(c' & V3 & V4 & V5)]; congruence.
Qed.

Lemma only_adopted_destroyed : forall os st, well_formed os -> run init os = Some st ->
  forall x, In x (deleted (mm st)) -> In x (adopted os).
Proof.
  intros os st [Sc N] R x Hx.
  destruct (run_inv os init [] [] sinv_init) as (st' & g & R' & (own & I & Nd) & G); auto.
  { intro n. simpl. tauto. }
  assert (st' = st) by congruence. subst. apply i_del in I. destruct I as [_ I]. apply I in Hx. apply G in Hx. simpl in Hx. tauto.
Qed.

Lemma bool_conversion : forall os st h v, well_formed os -> run init os = Some st -> In (h, v) (handles st) ->
  (sp_bool (mm st) v = true <-> px v <> None).
Proof.
  intros os st h v [Sc N] R Hin.
  destruct (run_inv os init [] [] sinv_init) as (st' & g & R' & (own & I & Nd) & G); auto.
  { intro n. simpl. tauto. }
  assert (st' = st) by congruence. subst.
  assert (Hv' : In v (map snd (handles st))) by (apply (in_map snd) in Hin; auto).
  unfold sp_bool. destruct I as [A B C D E]. destruct (A v Hv') as [[-> ->]|(c & -> & -> & V3)].
  - split; [discriminate|]. intro H. contradiction.
  - destruct (cnt (mm st) c) as [k|] eqn:Ek; [|contradiction]. destruct (B _ _ Ek) as (B1 & B2 & _).
    split; [discriminate|]. intros _. apply Z.ltb_lt. lia.
Qed.
