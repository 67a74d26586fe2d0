(** Replaying the last order. *)
From Coq Require Import List ZArith NArith Bool Arith Permutation Sorted Lia.
From Verif Require Import Base OrderModel OrderSpec OrderProofs OrderProofs2.
Import ListNotations.
Local Open Scope Z_scope.

Definition surv (now : list tsuite) (u : bytes) (cs : list tcase) : list skey := filter (fun k => mem_key k (keys_of now u)) (map key cs).
Lemma surv_cons : forall now u c cs, surv now u (c :: cs) = if mem_key (key c) (keys_of now u) then key c :: surv now u cs else surv now u cs.
Proof. reflexivity. Qed.
Lemma surv_In : forall now u cs x, In x (surv now u cs) <-> In x (map key cs) /\ In x (keys_of now u).
Proof. intros. unfold surv. rewrite filter_In, mem_key_In. tauto. Qed.
Lemma surv_len : forall now u cs, (length (surv now u cs) <= length cs)%nat.
Proof. intros. induction cs as [|c cs IH]; [reflexivity|]. rewrite surv_cons. cbn [length]. destruct (mem_key (key c) (keys_of now u)); cbn [length]; lia. Qed.

Record group_ok (now : list tsuite) (u : bytes) (cs : list tcase) (m : marks) (k : Z) (m' : marks) (k' : Z) : Prop := mkgo {
  go_k : k' = k + Z.of_nat (length (surv now u cs));
  go_sorted : StronglySorted (fun a b => m_case m' u a < m_case m' u b) (surv now u cs);
  go_range : forall x, In x (surv now u cs) -> k < m_case m' u x <= k';
  go_case : forall u' x, (u' <> u \/ ~ In x (surv now u cs)) -> m_case m' u' x = m_case m u' x;
  go_suite : surv now u cs <> [] -> m_suite m' u = k';
  go_suite' : forall u', (u' <> u \/ surv now u cs = []) -> m_suite m' u' = m_suite m u';
  go_last : forall u' x, m_last m' u' x = true <-> m_last m u' x = true \/ (u' = u /\ In x (keys_of now u) /\ exists c, In c cs /\ key c = x /\ c_failed c = true) }.

Lemma ekey_of : forall s c, ekey (entry_of s c) = key c. Proof. reflexivity. Qed.
Lemma group : forall now s cs m k, NoDup (map key cs) ->
  group_ok now (sname s) cs m k (fst (fold_left (mark_entry now) (map (entry_of s) cs) (m, k))) (snd (fold_left (mark_entry now) (map (entry_of s) cs) (m, k))).
Proof.
  intros now s. set (u := sname s). induction cs as [|c cs IH]; intros m k ND; cbn [map fold_left fst snd].
  - constructor; cbn; intros; try lia; try tauto; auto; try (constructor; fail). split; auto. intros [H|(_ & _ & c & [] & _)]; auto.
  - cbn [map] in ND. inversion ND as [|? ? N1 N2]; subst.
    assert (NS : ~ In (key c) (surv now u cs)) by (intro I; apply surv_In in I; tauto).
    unfold mark_entry at 2 4. unfold here. rewrite ekey_of. replace (e_suite (entry_of s c)) with u by reflexivity. replace (e_failed (entry_of s c)) with (c_failed c) by reflexivity. cbn [fst snd].
    destruct (mem_key (key c) (keys_of now u)) eqn:M.
    + assert (HM := M). apply mem_key_In in HM.
      destruct (IH (mark m u (key c) (k + 1) (c_failed c)) (k + 1) N2) as [A B C D E F G].
      set (m' := fst (fold_left (mark_entry now) (map (entry_of s) cs) (mark m u (key c) (k + 1) (c_failed c), k + 1))) in *.
      set (k' := snd (fold_left (mark_entry now) (map (entry_of s) cs) (mark m u (key c) (k + 1) (c_failed c), k + 1))) in *.
      assert (Vc : m_case m' u (key c) = k + 1). { rewrite D by auto. unfold mark. cbn [m_case]. rewrite bytes_eqb_refl, key_eqb_refl. auto. }
      constructor; try rewrite surv_cons, M.
      * cbn [length]. lia.
      * constructor; auto. apply Forall_forall. intros x Ix. rewrite Vc. specialize (C x Ix). lia.
      * intros x [<-|Ix]; [rewrite Vc; lia|]. specialize (C x Ix). lia.
      * intros u' x H. assert (H' : u' <> u \/ ~ In x (surv now u cs)) by (destruct H as [H|H]; auto; right; intro; apply H; right; auto).
        rewrite D by auto. unfold mark. cbn [m_case]. destruct (bytes_eqb u u' && key_eqb (key c) x) eqn:Q; auto.
        apply andb_true_iff in Q. destruct Q as [Q1 Q2]. apply bytes_eqb_eq in Q1. apply key_eqb_eq in Q2. exfalso. destruct H as [H|H]; [congruence|]. apply H. left. auto.
      * intros _. destruct (surv now u cs) as [|y l] eqn:Sv.
        -- rewrite F by auto. unfold mark. cbn [m_suite]. rewrite bytes_eqb_refl. cbn [length] in A. lia.
        -- apply E. discriminate.
      * intros u' H. destruct H as [H|H]; [|discriminate]. rewrite F by auto. unfold mark. cbn [m_suite]. destruct (bytes_eqb u u') eqn:Q; auto. apply bytes_eqb_eq in Q. congruence.
      * intros u' x. rewrite G. unfold mark. cbn [m_last]. destruct (bytes_eqb u u' && key_eqb (key c) x) eqn:Q.
        -- apply andb_true_iff in Q. destruct Q as [Q1 Q2]. apply bytes_eqb_eq in Q1. apply key_eqb_eq in Q2. subst u' x. destruct (c_failed c) eqn:Fc.
           ++ split; intro; [right; split; auto; split; auto; exists c; cbn; auto|left; auto].
           ++ split; intros [H|(H1 & H2 & y & H3 & H4 & H5)]; auto.
              ** right. split; auto. split; auto. exists y. cbn. auto.
              ** destruct H3 as [<-|H3]; [congruence|]. right. split; auto. split; auto. exists y. auto.
        -- split; intros [H|(H1 & H2 & y & H3 & H4 & H5)]; auto; right; split; auto; split; auto; exists y; [cbn; auto|].
           destruct H3 as [<-|H3]; auto. exfalso. subst u' x. rewrite bytes_eqb_refl, key_eqb_refl in Q. discriminate.
    + destruct (IH m k N2) as [A B C D E F G]. assert (HM : ~ In (key c) (keys_of now u)) by (intro I; apply mem_key_In in I; congruence).
      constructor; try rewrite surv_cons, M; auto.
      intros u' x. rewrite G. split; intros [H|(H1 & H2 & y & H3 & H4 & H5)]; auto; right; split; auto; split; auto; exists y; [cbn; auto|].
      destruct H3 as [<-|H3]; auto. exfalso. subst x. auto.
Qed.

Lemma keys_of_unique : forall ss s, NoDup (map sname ss) -> In s ss -> keys_of ss (sname s) = keys s.
Proof.
  induction ss as [|x ss IH]; intros s ND I; [destruct I|]. cbn [map] in ND. inversion ND as [|? ? N1 N2]; subst. unfold keys_of. cbn [flat_map]. fold (keys_of ss (sname s)).
  destruct I as [->|I].
  - rewrite bytes_eqb_refl. assert (E : keys_of ss (sname s) = []); [|rewrite E, app_nil_r; auto].
    destruct (keys_of ss (sname s)) as [|k l] eqn:E; auto. exfalso. assert (Ik : In k (keys_of ss (sname s))) by (rewrite E; left; auto). apply keys_of_In in Ik. destruct Ik as (y & Y1 & Y2 & _).
    apply N1. rewrite <- Y2. apply in_map. auto.
  - destruct (bytes_eqb (sname x) (sname s)) eqn:E; [|apply IH; auto]. apply bytes_eqb_eq in E. exfalso. apply N1. rewrite E. apply in_map. auto.
Qed.
Lemma keys_of_absent : forall ss u, ~ In u (map sname ss) -> keys_of ss u = [].
Proof.
  intros ss u H. destruct (keys_of ss u) as [|k l] eqn:E; auto. exfalso. assert (I : In k (keys_of ss u)) by (rewrite E; left; auto). apply keys_of_In in I. destruct I as (s & A & B & _). apply H. rewrite <- B. apply in_map. auto.
Qed.
Lemma keys_of_cons : forall s ss u, keys_of (s :: ss) u = (if bytes_eqb (sname s) u then keys s else []) ++ keys_of ss u. Proof. reflexivity. Qed.

Record groups_ok (now old : list tsuite) (m : marks) (k : Z) (m' : marks) (k' : Z) : Prop := mkgs {
  gs_k : k <= k' <= k + total_cases old;
  gs_sorted : forall u, StronglySorted (fun a b => m_case m' u a < m_case m' u b) (surviving old now u);
  gs_range : forall u x, In x (surviving old now u) -> k < m_case m' u x <= k';
  gs_case : forall u x, ~ In x (surviving old now u) -> m_case m' u x = m_case m u x;
  gs_ssorted : StronglySorted (fun a b => m_suite m' a < m_suite m' b) (filter (survives old now) (map sname old));
  gs_srange : forall u, survives old now u = true -> k < m_suite m' u <= k';
  gs_suite : forall u, survives old now u = false -> m_suite m' u = m_suite m u;
  gs_last : forall u x, m_last m' u x = true <-> m_last m u x = true \/ (In x (keys_of now u) /\ recorded_failed old u x) }.

Lemma survives_true : forall old now u, survives old now u = true <-> surviving old now u <> [].
Proof. intros. unfold survives. destruct (surviving old now u); cbn; split; congruence. Qed.
Lemma surviving_absent : forall old now u, ~ In u (map sname old) -> surviving old now u = [].
Proof. intros. unfold surviving. rewrite (keys_of_absent old); auto. Qed.
Lemma surviving_cons : forall s old now u, ~ In (sname s) (map sname old) ->
  surviving (s :: old) now u = if bytes_eqb (sname s) u then surv now u (u_cases s) else surviving old now u.
Proof.
  intros s old now u H. unfold surviving. rewrite keys_of_cons. destruct (bytes_eqb (sname s) u) eqn:E; auto.
  apply bytes_eqb_eq in E. subst u. rewrite (keys_of_absent old); auto. rewrite app_nil_r. reflexivity.
Qed.
Lemma filter_ext_in' : forall (A : Type) (f g : A -> bool) l, (forall x, In x l -> f x = g x) -> filter f l = filter g l.
Proof. induction l as [|a l IH]; intros H; cbn; auto. rewrite (H a (or_introl eq_refl)), IH; auto. intros; apply H; right; auto. Qed.

Lemma groups : forall now old m k, distinct old ->
  groups_ok now old m k (fst (fold_left (mark_entry now) (entries_of old) (m, k))) (snd (fold_left (mark_entry now) (entries_of old) (m, k))).
Proof.
  intros now. induction old as [|s old IH]; intros m k [D1 D2].
  - cbn. constructor; cbn; intros; try tauto; try discriminate; auto; try constructor; try lia.
    + auto.
    + intros [H|(_ & s & c & [] & _)]; auto.
  - cbn [map] in D1. inversion D1 as [|? ? N1 N2]; subst. unfold entries_of. cbn [flat_map]. rewrite fold_left_app. fold (entries_of old).
    destruct (group now s (u_cases s) m k) as [A B C D E F G]; [apply D2; left; auto|].
    set (x1 := fold_left (mark_entry now) (map (entry_of s) (u_cases s)) (m, k)) in *. destruct x1 as [m1 k1]. cbn [fst snd] in *.
    destruct (IH m1 k1) as [A' B' C' D' E' F' G' H']; [split; auto; intros; apply D2; right; auto|].
    set (m2 := fst (fold_left (mark_entry now) (entries_of old) (m1, k1))) in *. set (k2 := snd (fold_left (mark_entry now) (entries_of old) (m1, k1))) in *.
    assert (L := surv_len now (sname s) (u_cases s)).
    assert (Sab : surviving old now (sname s) = []) by (apply surviving_absent; auto).
    assert (Svs : survives old now (sname s) = false) by (unfold survives; rewrite Sab; auto).
    assert (SS : forall u, survives (s :: old) now u = if bytes_eqb (sname s) u then negb (Nat.eqb (length (surv now u (u_cases s))) 0) else survives old now u).
    { intros u. unfold survives. rewrite surviving_cons by auto. destruct (bytes_eqb (sname s) u); auto. }
    assert (Eqc : forall x, m_case m2 (sname s) x = m_case m1 (sname s) x) by (intro; apply D'; rewrite Sab; auto).
    constructor.
    + unfold total_cases. cbn [flat_map]. rewrite app_length. unfold total_cases in A'. lia.
    + intro u. rewrite surviving_cons by auto. destruct (bytes_eqb (sname s) u) eqn:Q; [|apply B']. apply bytes_eqb_eq in Q. subst u.
      clear - B Eqc. induction B; constructor; auto. revert H. apply Forall_impl. intros. rewrite !Eqc. auto.
    + intros u x. rewrite surviving_cons by auto. destruct (bytes_eqb (sname s) u) eqn:Q.
      * apply bytes_eqb_eq in Q. subst u. intro I. rewrite Eqc. specialize (C x I). lia.
      * intro I. specialize (C' u x I). lia.
    + intros u x. rewrite surviving_cons by auto. destruct (bytes_eqb (sname s) u) eqn:Q.
      * apply bytes_eqb_eq in Q. subst u. intro I. rewrite Eqc. apply D. auto.
      * intro I. rewrite D' by auto. apply D. left. intros ->. rewrite bytes_eqb_refl in Q. discriminate.
    + cbn [map filter]. rewrite SS, bytes_eqb_refl.
      assert (FE : filter (survives (s :: old) now) (map sname old) = filter (survives old now) (map sname old)).
      { apply filter_ext_in'. intros u I. rewrite SS. destruct (bytes_eqb (sname s) u) eqn:Q; auto. apply bytes_eqb_eq in Q. subst u. contradiction. }
      rewrite FE. destruct (surv now (sname s) (u_cases s)) as [|y l] eqn:Sv; cbn [length Nat.eqb negb]; auto.
      constructor; auto. apply Forall_forall. intros u I. apply filter_In in I. destruct I as [I1 I2]. rewrite (G' (sname s)) by auto. rewrite E by discriminate. apply F' in I2. lia.
    + intros u. rewrite SS. destruct (bytes_eqb (sname s) u) eqn:Q.
      * apply bytes_eqb_eq in Q. subst u. destruct (surv now (sname s) (u_cases s)) as [|y l] eqn:Sv; cbn [length Nat.eqb negb]; [discriminate|]. intros _. rewrite G' by auto. rewrite E by discriminate. cbn [length] in A. lia.
      * intro I. apply F' in I. lia.
    + intros u. rewrite SS. destruct (bytes_eqb (sname s) u) eqn:Q.
      * apply bytes_eqb_eq in Q. subst u. destruct (surv now (sname s) (u_cases s)) as [|y l] eqn:Sv; cbn [length Nat.eqb negb]; [|discriminate]. intros _. rewrite G' by auto. apply F. auto.
      * intro I. rewrite G' by auto. apply F. left. intros ->. rewrite bytes_eqb_refl in Q. discriminate.
    + intros u x. rewrite H', G. split.
      * intros [[H|(-> & H2 & c & H3 & H4 & H5)]|(H1 & s1 & c & H2 & H3)]; auto.
        -- right. split; auto. exists s, c. cbn. auto.
        -- right. split; auto. exists s1, c. cbn. tauto.
      * intros [H|(H1 & s1 & c & [<-|H2] & H3 & H4 & H5 & H6)]; auto.
        -- left. right. subst u. split; auto. split; auto. exists c. auto.
        -- right. split; auto. exists s1, c. auto.
Qed.

(** *** the order after sorting *)
Lemma names_paint_seq : forall m now s, In s (paint m now) -> o_seq (st s) = m_suite m (sname s).
Proof. intros m now s I. unfold paint in I. apply in_map_iff in I. destruct I as (x & <- & _). reflexivity. Qed.
Lemma sort_map_seq : forall (A B : Type) (f : A -> Z) (g : A -> B) (h : B -> Z) l t,
  (forall a, In a l -> f a = h (g a)) -> Permutation (map g l) t -> StronglySorted (fun a b => h a < h b) t -> map g (sort (fun a b => f a - f b) l) = t.
Proof.
  intros A B f g h l t Hf P S. apply sorted_unique with (f := h); auto.
  - eapply Permutation_trans; [|exact P]. apply Permutation_sym, Permutation_map, sort_perm.
  - assert (SS : StronglySorted (fun a b => f a <= f b) (sort (fun a b => f a - f b) l)).
    { apply (sort_sorted (fun a b => f a - f b) (fun _ => True)); [intros; lia| |apply Forall_forall; auto]. intros a b _ _. split; intro; lia. }
    assert (Hf' : forall a, In a (sort (fun a b => f a - f b) l) -> f a = h (g a)). { intros a I. apply Hf. apply (Permutation_in _ (Permutation_sym (sort_perm _ l)) I). }
    clear - SS Hf'. induction SS as [|a q SS IH F]; cbn; constructor.
    + apply IH. intros; apply Hf'; right; auto.
    + rewrite Forall_map. rewrite Forall_forall in *. intros b Ib. rewrite <- (Hf' a (or_introl eq_refl)), <- (Hf' b (or_intror Ib)). auto.
Qed.
Lemma sorted_app : forall (A : Type) (R : A -> A -> Prop) a b, StronglySorted R a -> StronglySorted R b -> (forall x y, In x a -> In y b -> R x y) -> StronglySorted R (a ++ b).
Proof.
  intros A R a b Sa Sb H. induction Sa as [|x a Sa IH F]; cbn; auto. constructor.
  - apply IH. intros; apply H; auto. right; auto.
  - apply Forall_app. split; auto. apply Forall_forall. intros y I. apply H; auto. left; auto.
Qed.
Lemma sorted_ext : forall (A : Type) (R S : A -> A -> Prop) l, (forall a b, In a l -> In b l -> R a b -> S a b) -> StronglySorted R l -> StronglySorted S l.
Proof.
  intros A R S l H SS. induction SS as [|a l SS IH F]; constructor.
  - apply IH. intros; apply H; auto; right; auto.
  - rewrite Forall_forall in *. intros b I. apply H; auto; [left|right]; auto.
Qed.

(** the tests unknown to the file come in increasing order, behind all numbers that will be given out *)
Definition rest_later (old now : list tsuite) (k : Z) : Prop :=
  StronglySorted (fun a b => o_seq (st a) < o_seq (st b)) (filter (fun s => negb (survives old now (sname s))) now) /\
  (forall s, In s now -> survives old now (sname s) = false -> k + total_cases old < o_seq (st s)) /\
  forall s, In s now ->
    StronglySorted (fun a b => o_seq (ct a) < o_seq (ct b)) (filter (fun c => negb (mem_key (key c) (keys_of old (sname s)))) (u_cases s)) /\
    (forall c, In c (u_cases s) -> mem_key (key c) (keys_of old (sname s)) = false -> k + total_cases old < o_seq (ct c)).

Lemma filter_map_comm : forall (A B : Type) (f : A -> B) (p : B -> bool) l, filter p (map f l) = map f (filter (fun a => p (f a)) l).
Proof. induction l as [|a l IH]; cbn; auto. destruct (p (f a)); cbn; rewrite IH; auto. Qed.
Lemma StronglySorted_map : forall (A B : Type) (f : A -> B) (R : B -> B -> Prop) l, StronglySorted (fun a b => R (f a) (f b)) l -> StronglySorted R (map f l).
Proof. intros. induction H; cbn; constructor; auto. rewrite Forall_map. auto. Qed.
Lemma NoDup_filter' : forall (A : Type) (f : A -> bool) l, NoDup l -> NoDup (filter f l).
Proof. intros. apply NoDup_filter. auto. Qed.
Lemma NoDup_app' : forall (A : Type) (a b : list A), NoDup a -> NoDup b -> (forall x, In x a -> ~ In x b) -> NoDup (a ++ b).
Proof.
  induction a as [|x a IH]; intros b Na Nb H; cbn; auto. inversion Na; subst. constructor.
  - intro I. apply in_app_or in I. destruct I as [I|I]; [auto|]. apply (H x); auto. left; auto.
  - apply IH; auto. intros y I. apply H. right; auto.
Qed.

Lemma replay : forall old now k, distinct old -> distinct now -> rest_later old now k ->
  replays old now (sort_all cmp_seq (fst (find_all (entries_of old) k now))).
Proof.
  intros old now k DO DN (R1 & R2 & R3). rewrite <- (paint0 now DN) at 2. rewrite find_all_paint by auto. cbn [fst].
  pose proof (groups now old (marks0 now) k DO) as GG. set (m := fst (fold_left (mark_entry now) (entries_of old) (marks0 now, k))) in *.
  set (k' := snd (fold_left (mark_entry now) (entries_of old) (marks0 now, k))) in *. destruct GG as [A B C D E F G H].
  destruct DO as [DO1 DO2]. assert (DN' := DN). destruct DN' as [DN1 DN2].
  assert (S0 : forall s, In s now -> m_suite (marks0 now) (sname s) = o_seq (st s)) by (intros s I; cbn [marks0 m_suite]; rewrite lookup_suite_in by auto; auto).
  assert (C0 : forall s c, In s now -> In c (u_cases s) -> m_case (marks0 now) (sname s) (key c) = o_seq (ct c)) by (intros s c Is Ic; cbn [marks0 m_case]; rewrite lookup_case_in by auto; auto).
  assert (SI : forall u, survives old now u = true -> In u (map sname now)).
  { intros u I. apply survives_true in I. destruct (surviving old now u) as [|x l] eqn:Q; [congruence|]. assert (Ix : In x (surviving old now u)) by (rewrite Q; left; auto).
    unfold surviving in Ix. apply filter_In in Ix. destruct Ix as [_ Ix]. apply mem_key_In, keys_of_In in Ix. destruct Ix as (s & I1 & <- & _). apply in_map. auto. }
  assert (SO : forall u, survives old now u = true -> In u (map sname old)).
  { intros u I. apply survives_true in I. destruct (in_dec (list_eq_dec N.eq_dec) u (map sname old)) as [|N]; auto. exfalso. apply I. apply surviving_absent. auto. }
  unfold replays, sort_all. rewrite map_map. split.
  - (* suites *)
    change (fun x => sname {| st := st x; u_cases := sort (fun a b => cmp_seq (ct a) (ct b)) (u_cases x) |}) with sname. unfold cmp_seq.
    apply (sort_map_seq _ _ (fun s => o_seq (st s)) sname (m_suite m)).
    + intros s I. eapply names_paint_seq; eauto.
    + rewrite sname_paint. apply NoDup_Permutation; auto.
      * apply NoDup_app'; auto using NoDup_filter'. intros u I1 I2. apply filter_In in I1, I2. destruct I1 as [_ I1], I2 as [_ I2]. rewrite I1 in I2. discriminate.
      * intro u. rewrite in_app_iff, !filter_In. split.
        -- intro I. destruct (survives old now u) eqn:Q; [left; auto|right; auto].
        -- intros [[I1 I2]|[I1 I2]]; auto.
    + apply sorted_app; auto.
      * rewrite filter_map_comm. apply StronglySorted_map. eapply sorted_ext; [|exact R1]. intros a b Ia Ib L. apply filter_In in Ia, Ib. destruct Ia as [Ia Qa], Ib as [Ib Qb]. apply negb_true_iff in Qa, Qb.
        rewrite !G, !S0 by auto. auto.
      * intros a b Ia Ib. apply filter_In in Ia, Ib. destruct Ia as [_ Ia], Ib as [Ib Qb]. apply negb_true_iff in Qb. apply in_map_iff in Ib. destruct Ib as (s & <- & Is). apply F in Ia. rewrite (G _ Qb), S0 by auto. specialize (R2 s Is Qb). lia.
  - intros s' I. apply in_map_iff in I. destruct I as (s1 & <- & I). assert (I1 : In s1 (paint m now)) by (apply (Permutation_in _ (Permutation_sym (sort_perm _ _)) I)). clear I.
    unfold paint in I1. apply in_map_iff in I1. destruct I1 as (s & <- & Is). cbn [u_cases st].
    match goal with |- keys ?Y = _ /\ _ => set (X := Y) end. assert (NX : sname X = sname s) by reflexivity. rewrite !NX.
    destruct (R3 s Is) as [R4 R5]. assert (Ku := keys_of_unique now s DN1 Is). split.
    + unfold keys, X. cbn [u_cases]. unfold cmp_seq.
      apply (sort_map_seq _ _ (fun c => o_seq (ct c)) key (m_case m (sname s))).
      * intros c Ic. apply in_map_iff in Ic. destruct Ic as (c0 & <- & Ic). reflexivity.
      * rewrite map_map. change (fun x => key (paint_case m (sname s) x)) with key. fold (keys s). unfold surviving, fresh. rewrite Ku.
        assert (NK : NoDup (keys_of old (sname s))).
        { destruct (in_dec (list_eq_dec N.eq_dec) (sname s) (map sname old)) as [Io|No]; [|rewrite keys_of_absent; auto; constructor].
          apply in_map_iff in Io. destruct Io as (so & Eo & Io). rewrite <- Eo, keys_of_unique by auto. apply DO2; auto. }
        apply NoDup_Permutation; [apply DN2; auto| |].
        -- apply NoDup_app'; [apply NoDup_filter'; auto|apply NoDup_filter'; apply DN2; auto|]. intros x I1 I2. apply filter_In in I1, I2. destruct I1 as [I1 _], I2 as [_ I2]. apply mem_key_In in I1. rewrite I1 in I2. discriminate.
        -- intro x. rewrite in_app_iff, !filter_In, mem_key_In. split.
           ++ intro I. destruct (mem_key x (keys_of old (sname s))) eqn:Q; [left; apply mem_key_In in Q; auto|right; auto].
           ++ tauto.
      * unfold surviving, fresh. rewrite Ku.
        assert (NSv : forall x, mem_key x (keys_of old (sname s)) = false -> ~ In x (surviving old now (sname s))).
        { intros x Q I. unfold surviving in I. apply filter_In in I. destruct I as [I _]. apply mem_key_In in I. congruence. }
        apply sorted_app.
        -- specialize (B (sname s)). unfold surviving in B. rewrite Ku in B. auto.
        -- unfold keys. rewrite filter_map_comm. apply StronglySorted_map. eapply sorted_ext; [|exact R4]. intros a b Ia Ib L. apply filter_In in Ia, Ib. destruct Ia as [Ia Qa], Ib as [Ib Qb]. apply negb_true_iff in Qa, Qb.
           rewrite !D, !C0 by auto. auto.
        -- intros a b Ia Ib. assert (Ia' : In a (surviving old now (sname s))) by (unfold surviving; rewrite Ku; exact Ia). apply C in Ia'. apply filter_In in Ib. destruct Ib as [Ib Qb]. apply negb_true_iff in Qb.
           apply in_map_iff in Ib. destruct Ib as (c & <- & Ic). rewrite (D _ (key c)), C0 by auto. specialize (R5 c Ic Qb). lia.
    + unfold X. cbn [u_cases]. intros c Ic. assert (Ic1 : In c (map (paint_case m (sname s)) (u_cases s))) by (apply (Permutation_in _ (Permutation_sym (sort_perm _ _)) Ic)). apply in_map_iff in Ic1. destruct Ic1 as (c0 & <- & Ic0).
      unfold paint_case at 1. cbn [c_last]. change (key (paint_case m (sname s) c0)) with (key c0). rewrite H. cbn [marks0 m_last]. rewrite lookup_case_in by auto.
      assert (Ik : In (key c0) (keys_of now (sname s))) by (rewrite Ku; apply in_map; auto). split.
      * intros [L|[_ L]]; auto. right. exists s, c0. unfold paint_case. cbn. auto 10.
      * intros [L|(s2 & c2 & J1 & J2 & J3 & J4 & J5 & J6)]; auto. left.
        assert (s2 = s). { pose proof (lookup_suite_in now s2 DN1 J1) as Q. rewrite J4, lookup_suite_in in Q by auto. congruence. } subst s2.
        pose proof (lookup_case_in now s c2 DN Is J2) as Q. rewrite J5, lookup_case_in in Q by auto. congruence.
Qed.

(** registration satisfies the side condition *)
Lemma sorted_filter : forall (A : Type) (R : A -> A -> Prop) f l, StronglySorted R l -> StronglySorted R (filter f l).
Proof.
  intros A R f l S. induction S as [|a l S IH F]; cbn; [constructor|]. destruct (f a); auto. constructor; auto. apply Forall_forall. intros b I. apply filter_In in I. rewrite Forall_forall in F. apply F. tauto.
Qed.
Lemma reg_rest_later : forall old ss, (forall s, In s ss -> u_cases s <> []) -> total_cases old <= seq0 -> rest_later old (reg_suites seq0 ss) 0.
Proof.
  intros old ss Ne T. destruct (reg_suites_sorted ss seq0 Ne) as (S1 & S2 & S3). rewrite Forall_forall in S2, S3. unfold rest_later. split; [apply sorted_filter; auto|]. split.
  - intros s I _. specialize (S2 s I). lia.
  - intros s I. destruct (S3 s I) as [A B]. split; [apply sorted_filter; auto|]. rewrite Forall_forall in B. intros c Ic _. specialize (B c Ic). lia.
Qed.
Lemma nonempty_entries : forall old, total_cases old <> 0 -> negb (length (entries_of old) =? 0)%nat = true.
Proof.
  intros old H. unfold total_cases in H. assert (E : length (entries_of old) = length (flat_map u_cases old)).
  { unfold entries_of. clear. induction old as [|s old IH]; cbn [flat_map]; auto. rewrite !app_length, map_length, IH. auto. }
  rewrite E. destruct (length (flat_map u_cases old)); auto.
Qed.
Lemma shuffle_replays : forall o r old now k, printable old -> total_cases old <> 0 -> distinct old -> distinct now -> rest_later old now k ->
  exists res, shuffle o r (Some (save_last_order old)) k now = Some (res, length (entries_of old)) /\ replays old now res.
Proof.
  intros o r old now k P T DO DN RL. unfold shuffle. rewrite round_trip by auto. pose proof (replay old now k DO DN RL) as R.
  destruct (find_all (entries_of old) k now) as [ss1 k1] eqn:E. cbn [fst] in R. rewrite nonempty_entries by auto. eexists. split; [reflexivity|]. auto.
Qed.
Lemma next_run : forall o r old ss, printable old -> total_cases old <> 0 -> total_cases old <= seq0 -> distinct old -> distinct (reg_suites seq0 ss) ->
  (forall s, In s ss -> u_cases s <> []) ->
  exists res, shuffle o r (Some (save_last_order old)) 0 (reg_suites seq0 ss) = Some (res, length (flat_map u_cases old)) /\ replays old (reg_suites seq0 ss) res.
Proof.
  intros o r old ss P T T' DO DN Ne. destruct (shuffle_replays o r old (reg_suites seq0 ss) 0 P T DO DN (reg_rest_later old ss Ne T')) as (res & E & R). exists res. split; auto. rewrite E. do 2 f_equal.
  unfold entries_of. clear. induction old as [|s old IH]; cbn [flat_map]; auto. rewrite !app_length, map_length, IH. auto.
Qed.
(** next round of the same run: the saved order again *)
Lemma next_round : forall o r old now k, printable old -> total_cases old <> 0 -> distinct old -> distinct now ->
  Permutation (map sname old) (map sname now) -> (forall u, Permutation (keys_of old u) (keys_of now u)) -> (forall s, In s now -> u_cases s <> []) ->
  exists res, shuffle o r (Some (save_last_order old)) k now = Some (res, length (entries_of old)) /\ map sname res = map sname old /\
    forall s, In s res -> keys s = keys_of old (sname s).
Proof.
  intros o r old now k P T DO DN PN PK Ne.
  assert (SV : forall u, surviving old now u = keys_of old u).
  { intro u. unfold surviving. assert (Q : forall l, (forall x, In x l -> In x (keys_of now u)) -> filter (fun k => mem_key k (keys_of now u)) l = l).
    { induction l as [|x l IH]; intros H; cbn; auto. replace (mem_key x (keys_of now u)) with true by (symmetry; apply mem_key_In; apply H; left; auto). rewrite IH; auto. intros; apply H; right; auto. }
    apply Q. intros x I. apply (Permutation_in _ (PK u) I). }
  assert (FR : forall u, fresh old now u = []).
  { intro u. unfold fresh. assert (Q : forall l, (forall x, In x l -> In x (keys_of old u)) -> filter (fun k => negb (mem_key k (keys_of old u))) l = []).
    { induction l as [|x l IH]; intros H; cbn; auto. replace (mem_key x (keys_of old u)) with true by (symmetry; apply mem_key_In; apply H; left; auto). cbn. apply IH. intros; apply H; right; auto. }
    apply Q. intros x I. apply (Permutation_in _ (Permutation_sym (PK u)) I). }
  assert (SU : forall s, In s now -> survives old now (sname s) = true).
  { intros s I. apply survives_true. rewrite SV. intro Z. pose proof (PK (sname s)) as PP. rewrite Z in PP. apply Permutation_nil in PP. rewrite keys_of_unique in PP by (auto; apply DN). apply (Ne s I). unfold keys in PP. destruct (u_cases s); auto. discriminate. }
  assert (RL : rest_later old now k).
  { split; [|split].
    - assert (Q' : forall l, (forall s, In s l -> In s now) -> filter (fun s => negb (survives old now (sname s))) l = []).
      { induction l as [|s l IH]; intros H; cbn; auto. rewrite SU by (apply H; left; auto). cbn. apply IH. intros; apply H; right; auto. }
      rewrite Q' by auto. constructor.
    - intros s I Q. rewrite SU in Q by auto. discriminate.
    - intros s I. assert (K : forall c, In c (u_cases s) -> mem_key (key c) (keys_of old (sname s)) = true).
      { intros c Ic. apply mem_key_In. apply (Permutation_in _ (Permutation_sym (PK (sname s)))). rewrite keys_of_unique by (auto; apply DN). apply in_map. auto. }
      split.
      + assert (Q' : forall l, (forall c, In c l -> In c (u_cases s)) -> filter (fun c => negb (mem_key (key c) (keys_of old (sname s)))) l = []).
        { induction l as [|c l IH]; intros H; cbn; auto. rewrite K by (apply H; left; auto). cbn. apply IH. intros; apply H; right; auto. }
        rewrite Q' by auto. constructor.
      + intros c Ic Q. rewrite K in Q by auto. discriminate. }
  destruct (shuffle_replays o r old now k P T DO DN RL) as (res & E & R1 & R2). exists res. split; auto. split.
  - rewrite R1.
    assert (Qa : forall l, (forall u, In u l -> In u (map sname now)) -> filter (survives old now) l = l).
    { induction l as [|u l IH]; intros H; cbn; auto. assert (I := H u (or_introl eq_refl)). apply in_map_iff in I. destruct I as (s & <- & Is). rewrite SU by auto. rewrite IH; auto. intros; apply H; right; auto. }
    assert (Qb : forall l, (forall u, In u l -> In u (map sname now)) -> filter (fun u => negb (survives old now u)) l = []).
    { induction l as [|u l IH]; intros H; cbn; auto. assert (I := H u (or_introl eq_refl)). apply in_map_iff in I. destruct I as (s & <- & Is). rewrite SU by auto. cbn. apply IH; auto. intros; apply H; right; auto. }
    rewrite Qa, Qb; auto; [apply app_nil_r|]. intros u I. apply (Permutation_in _ PN I).
  - intros s I. destruct (R2 s I) as [K _]. rewrite K, SV, FR. apply app_nil_r.
Qed.

(** *** the file over a whole run *)
Lemma order_file_entries : forall b, order_file b -> exists es, read_entries (S (length b)) b = Some es /\ es <> [].
Proof.
  intros b (old & -> & P & T). exists (entries_of old). split; [apply round_trip; auto|]. intro E. pose proof (nonempty_entries old T) as Q. rewrite E in Q. discriminate.
Qed.
Lemma shuffle_lasts : forall o r b k ss ss1 lasts, order_file b -> shuffle o r (Some b) k ss = Some (ss1, lasts) -> lasts <> O.
Proof.
  intros o r b k ss ss1 lasts F H. destruct (order_file_entries b F) as (es & E & N). unfold shuffle in H. rewrite E in H.
  destruct (find_all es k ss) as [ss2 k2]. destruct es as [|e es]; [congruence|]. cbn in H. injection H as _ <-. discriminate.
Qed.
Lemma rounds_kept : forall o r play n i k failed b ss final hist, order_file b -> 0 < failed ->
  rounds o r play n i k failed (Some b) ss = Some (final, hist) -> (forall x, In x hist -> 0 <= snd x) -> final = Some b.
Proof.
  intros o r play n. induction n as [|n IH]; cbn [rounds]; intros i k failed b ss final hist F P H G; [injection H as <- <-; auto|].
  destruct (shuffle o (r i) (Some b) k ss) as [[ss1 lasts]|] eqn:S1; [|discriminate]. destruct (play i ss1) as [ss2 f].
  match type of H with match ?t with _ => _ end = _ => destruct t as [[fin h]|] eqn:R; [|discriminate] end. injection H as <- <-.
  pose proof (G (ss2, f) (or_introl eq_refl)) as Gf. cbn [snd] in Gf. unfold keep_order in R.
  destruct (Z.eqb_spec (failed + f) 0) as [Z0|_]; [lia|]. pose proof (shuffle_lasts _ _ _ _ _ _ _ F S1) as NL. destruct (Nat.eqb_spec lasts 0) as [L0|_]; [contradiction|].
  apply (IH _ _ _ _ _ _ _ F) in R; auto; [lia|]. intros x I. apply G. right. auto.
Qed.
Lemma rounds_length : forall o r play n i k failed file ss final hist, rounds o r play n i k failed file ss = Some (final, hist) -> length hist = n.
Proof.
  intros o r play n. induction n as [|n IH]; cbn [rounds]; intros i k failed file ss final hist H; [injection H as <- <-; auto|].
  destruct (shuffle o (r i) file k ss) as [[ss1 lasts]|]; [|discriminate]. destruct (play i ss1) as [ss2 f].
  match type of H with match ?t with _ => _ end = _ => destruct t as [[fin h]|] eqn:R; [|discriminate] end. injection H as <- <-. cbn [length]. f_equal. eapply IH; eauto.
Qed.
Lemma rounds_file : forall o r play n i k file ss final hist, (forall b, file = Some b -> order_file b) ->
  rounds o r play n i k 0 file ss = Some (final, hist) ->
  (forall x, In x hist -> 0 <= snd x /\ printable (fst x) /\ (snd x <> 0 -> total_cases (fst x) <> 0)) ->
  length hist = n /\
  ((forall x, In x hist -> snd x = 0) -> final = match hist with [] => file | _ => None end) /\
  (forall pre u f post, hist = pre ++ (u, f) :: post -> (forall x, In x pre -> snd x = 0) -> f <> 0 ->
     final = match pre, file with [], Some b => Some b | _, _ => Some (save_last_order u) end).
Proof.
  intros o r play n. induction n as [|n IH]; cbn [rounds]; intros i k file ss final hist F H G.
  { injection H as <- <-. split; auto. split; auto. intros [|x pre] u f post E; discriminate. }
  destruct (shuffle o (r i) file k ss) as [[ss1 lasts]|] eqn:S1; [|discriminate]. destruct (play i ss1) as [ss2 f].
  match type of H with match ?t with _ => _ end = _ => destruct t as [[fin h]|] eqn:R; [|discriminate] end. injection H as <- <-.
  pose proof (G (ss2, f) (or_introl eq_refl)) as (Gf & Gp & Gt). cbn [fst snd] in Gf, Gp, Gt.
  assert (Gh : forall x, In x h -> 0 <= snd x /\ printable (fst x) /\ (snd x <> 0 -> total_cases (fst x) <> 0)) by (intros x I; apply G; right; auto).
  cbn [Z.add] in R. destruct (Z.eq_dec f 0) as [->|Nf].
  - unfold keep_order in R. cbn [Z.eqb] in R. assert (F0 : forall b, None = Some b -> order_file b) by (intros; discriminate). destruct (IH _ _ _ _ _ _ F0 R Gh) as (A & B & C). split; [cbn [length]; lia|]. split.
    + intro Z0. rewrite B; [destruct h; auto|]. intros x I. apply Z0. right. auto.
    + intros [|x pre] u f post E Z0 Nf; [injection E as <- <- _; congruence|]. injection E as <- E. rewrite (C pre u f post E); [destruct pre; auto| |auto].
      intros y I. apply Z0. right. auto.
  - pose proof (rounds_length _ _ _ _ _ _ _ _ _ _ _ R) as Hl.
    split; [cbn [length]; lia|]. split; [intro Z0; exfalso; apply Nf; apply (Z0 (ss2, f)); left; auto|].
    intros pre u g post E Z0 Ng. destruct pre as [|x pre]; [|injection E as <- _; exfalso; apply Nf; apply (Z0 (ss2, f)); left; auto].
    injection E as <- <- _. unfold keep_order in R. destruct (Z.eqb_spec f 0) as [E0|_]; [contradiction|].
    assert (FS : order_file (save_last_order ss2)) by (exists ss2; auto).
    destruct file as [b|].
    + pose proof (shuffle_lasts _ _ _ _ _ _ _ (F b eq_refl) S1) as NL. destruct (Nat.eqb_spec lasts 0) as [L0|_]; [contradiction|].
      eapply rounds_kept; [apply (F b eq_refl)| |exact R|]; [lia|]. intros x I. apply Gh; auto.
    + destruct (shuffle_defined o (r i) k ss) as [s' D]. rewrite D in S1. injection S1 as -> <-. cbn [Nat.eqb] in R.
      eapply rounds_kept; [apply FS| |exact R|]; [lia|]. intros x I. apply Gh; auto.
Qed.
