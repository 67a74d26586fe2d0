From Coq Require Import List NArith ZArith Bool Lia Arith Permutation.
From Verif Require Import Base PieceModel PieceSpec PieceProofs MemModel MemSpec MemProofs.
Import ListNotations.
Local Open Scope N_scope.

(** ** C13 *)
Lemma h2_in_In : forall a l, h2_in a l = true <-> In a l.
Proof.
  intros a l. unfold h2_in. rewrite existsb_exists. split.
  - intros (x & A & B). apply bytes_eqb_eq in B. subst. auto.
  - intro H. exists a. rewrite bytes_eqb_refl. auto.
Qed.

Lemma asymmetric_iff : forall ex wa wr bt, asymmetric ex wa wr bt = true <-> ~ corresponds wa wr /\ ex bt = false.
Proof.
  intros ex wa wr bt. unfold asymmetric.
  set (la := [str "malloc"; _; _; _; _]). set (lf := [str "free"]).
  set (ln := [str "new"; _; _; _]). set (ld := [str "delete"; _; _; _]).
  assert (C : corresponds wa wr <-> (In wa la /\ In wr lf) \/ (In wa ln /\ In wr ld)).
  { split.
    - intros (f & A & R). destruct f.
      + left. inversion A; inversion R; subst; unfold la, lf; simpl; split; auto 6.
      + right. inversion A; inversion R; subst; unfold ln, ld; simpl; split; auto 6.
    - intros [[A R]|[A R]].
      + exists CFam. split.
        * unfold la in A. simpl in A. destruct A as [<-|[<-|[<-|[<-|[<-|[]]]]]]; constructor.
        * unfold lf in R. simpl in R. destruct R as [<-|[]]. constructor.
      + exists CppFam. split.
        * unfold ln in A. simpl in A. destruct A as [<-|[<-|[<-|[<-|[]]]]]; constructor.
        * unfold ld in R. simpl in R. destruct R as [<-|[<-|[<-|[<-|[]]]]]; constructor. }
  rewrite C. clearbody la lf ln ld.
  rewrite <- !h2_in_In.
  destruct (h2_in wa la), (h2_in wr lf), (h2_in wa ln), (h2_in wr ld), (ex bt); simpl; split; intros; try easy; try tauto;
    (split; auto; intros [[? ?]|[? ?]]; discriminate) || (exfalso; tauto).
Qed.

Section P.
Variable ps : N.
Variable ex : N -> bool.
Hypothesis ps_pow2 : pow2 ps.

Lemma rel_tracked : forall tr st who ptr, history ps ex tr st -> tracked st ptr ->
  exists b p, In b (blocks st) /\ In p (b_pieces b) /\ p_ptr p = ptr /\
    snd (stack_rel ps ex st who ptr) = snd (piece_free ps ex (memo st) p who) /\
    released tr ptr = negb (p_freed p =? 0) /\ latest_alloc tr ptr = Some (p_who p, p_size p, p_bt p).
Proof.
  intros tr st who ptr H (b & p & Hb & Hp & E). unfold stack_rel.
  pose proof (history_inv ps ex ps_pow2 _ _ H) as I.
  pose proof (blocks_rel_spec ps ex (memo st) who ptr (blocks st)) as S.
  destruct (blocks_rel ps ex (memo st) (blocks st) who ptr) as [[bs f]|].
  - destruct S as (c & b0 & l1 & p0 & l2 & Nb & Hl & Hptr & _ & Hf).
    assert (Hin0 : In b0 (blocks st)) by (eapply nth_error_In; eauto).
    assert (Hp0 : In p0 (b_pieces b0)) by (rewrite Hl; apply in_elt).
    destruct (I_hist _ _ _ I _ _ Hin0 Hp0) as [R L]. rewrite Hptr in R, L. cbn [snd].
    exists b0, p0. repeat (split; [solve [auto]|]). auto.
  - exfalso. apply (S b p); auto.
Qed.

Lemma release_report : forall tr st who ptr, history ps ex tr st -> tracked st ptr ->
  let f := snd (stack_rel ps ex st who ptr) in
  (f = Some (FDouble ptr) <-> released tr ptr = true) /\
  exists wa size bt, latest_alloc tr ptr = Some (wa, size, bt) /\
    ((exists x y, f = Some (FAsym ptr x y)) <-> released tr ptr = false /\ ~ corresponds wa who /\ ex bt = false) /\
    (released tr ptr = false -> corresponds wa who \/ ex bt = true ->
       f = None \/ exists a spot, f = Some (FOverflow ptr size a spot)).
Proof.
  intros tr st who ptr H T f.
  destruct (rel_tracked tr st who ptr H T) as (b & p & Hb & Hp & E & Hf & Hr & Hl). fold f in Hf.
  rewrite Hr. unfold piece_free in Hf. cbv zeta in Hf.
  pose proof (asymmetric_iff ex (p_who p) who (p_bt p)) as A.
  destruct (N.eqb_spec (p_freed p) 0) as [F|F]; cbn [negb] in *.
  - destruct (asymmetric ex (p_who p) who (p_bt p)) eqn:Ea.
    + cbn [snd] in Hf. rewrite Hf, E. split; [split; discriminate|].
      exists (p_who p), (p_size p), (p_bt p). split; auto. split.
      * split; [|eauto]. intros _. split; auto. apply A. auto.
      * intros _ G. exfalso. destruct A as [A _]. destruct (A eq_refl). destruct G; [auto|congruence].
    + assert (NA : ~ (~ corresponds (p_who p) who /\ ex (p_bt p) = false)) by (rewrite <- A; discriminate).
      destruct (check_snowfield _ _ _ _ _ _) as [[a s]|]; cbn [snd] in Hf; rewrite Hf; (split; [split; discriminate|]);
        exists (p_who p), (p_size p), (p_bt p); (split; [auto|]); (split; [split; [intros (x & y & Z); discriminate|intros (_ & Z); exfalso; auto]|]).
      * intros _ _. right. rewrite E. eauto.
      * auto.
  - cbn [snd] in Hf. rewrite Hf, E. split; [split; auto|].
    exists (p_who p), (p_size p), (p_bt p). split; auto. split.
    + split; [intros (x & y & Z); discriminate|intros (Z & _); discriminate].
    + discriminate.
Qed.

Lemma release_untracked : forall st who ptr, ~ tracked st ptr -> stack_rel ps ex st who ptr = (st, None).
Proof.
  intros st who ptr H. unfold stack_rel. pose proof (blocks_rel_spec ps ex (memo st) who ptr (blocks st)) as S.
  destruct (blocks_rel ps ex (memo st) (blocks st) who ptr) as [[bs f]|]; auto.
  exfalso. apply H. destruct S as (c & b0 & l1 & p0 & l2 & Nb & Hl & Hptr & _).
  exists b0, p0. split; [eapply nth_error_In; eauto|]. split; auto. rewrite Hl. apply in_elt.
Qed.

Lemma tracked_ptrs : forall bs q, (exists b p, In b bs /\ In p (b_pieces b) /\ p_ptr p = q) <-> In q (map p_ptr (flat_map b_pieces bs)).
Proof.
  intros bs q. rewrite in_map_iff. split.
  - intros (b & p & A & B & C). exists p. split; auto. eapply in_flat; eauto.
  - intros (p & A & B). apply in_flat_map in B. destruct B as (b & C & D). eauto.
Qed.

Lemma tracked_step : forall st e st' o q, step ps ex st e = Some (st', o) ->
  (e <> Pop -> tracked st q -> tracked st' q) /\ (o = OPtr (Some q) -> tracked st' q).
Proof.
  intros st e st' o q. unfold tracked. rewrite !tracked_ptrs.
  destruct e as [a| |who size al fill bt base|who ptr|a bt|a v bt]; cbn [step].
  - intro H. injection H as <- <-. simpl. split; [auto|discriminate].
  - intro H. destruct (stack_pop st) as [[s f]|]; [|discriminate]. injection H as <- <-. split; [congruence|discriminate].
  - destruct (stack_new ps ex st base who size al fill bt) as [st1 r] eqn:E.
    intro H. injection H as <- <-. pose proof (stack_new_spec ps ex _ _ _ _ _ _ _ _ _ E) as S.
    destruct r as [p|].
    + destruct S as (b & T & Nb & Lim & Hp & Hbs & _).
      assert (P : Permutation (map p_ptr (flat_map b_pieces (blocks st1))) (p_ptr p :: map p_ptr (flat_map b_pieces (blocks st)))).
      { rewrite Hbs. apply (Permutation_map p_ptr (l' := p :: _)). apply (flat_map_upd_perm _ _ b _ p Nb). reflexivity. }
      split.
      * intros _ H. apply (Permutation_in _ (Permutation_sym P)). right. auto.
      * simpl. intro H. injection H as <-. apply (Permutation_in _ (Permutation_sym P)). left. auto.
    + destruct S as [-> _]. split; auto. discriminate.
  - unfold stack_rel. pose proof (blocks_rel_spec ps ex (memo st) who ptr (blocks st)) as S.
    destruct (blocks_rel ps ex (memo st) (blocks st) who ptr) as [[bs f]|]; intro H; injection H as <- <-; (split; [|discriminate]); auto.
    intros _. cbn [blocks]. destruct S as (c & b & l1 & p & l2 & Nb & Hl & Hptr & Hbs & Hf).
    rewrite Hbs, (flat_map_upd_ptrs _ _ _ _ Nb); auto. rewrite Hl. cbn [b_pieces]. rewrite !map_app. cbn [map].
    pose proof (piece_free_core ps ex (memo st) p who) as HC. unfold core in HC. injection HC as _ C2 _ _ _ _ _. rewrite C2. auto.
  - intro H. injection H as <- <-. split; [|discriminate]. intros _ Q. cbn [blocks do_load].
    match goal with |- In _ (map _ (flat_map _ ?bs)) => rewrite <- (same_ptrs (blocks st) bs); [exact Q|] end. apply blocks_host_same. intro. apply access_core.
  - intro H. injection H as <- <-. split; [|discriminate]. intros _ Q. cbn [blocks do_store].
    match goal with |- In _ (map _ (flat_map _ ?bs)) => rewrite <- (same_ptrs (blocks st) bs); [exact Q|] end. apply blocks_host_same. intro. apply access_core.
Qed.

(** ** C14 *)
Lemma live_keys : forall tr bs i b, Inv ex tr bs -> nth_error bs i = Some b ->
  map key (filter (fun p => p_freed p =? 0) (b_pieces b)) = rev (unreleased ex tr i).
Proof.
  intros tr bs i b I Hb. unfold unreleased.
  destruct (I_own _ _ _ I _ _ Hb) as [A _].
  assert (Hin : In b bs) by (eapply nth_error_In; eauto).
  assert (F : forall l, (forall p, In p l -> In p (b_pieces b)) ->
    map key (filter (fun p => p_freed p =? 0) l) = filter (fun a => negb (released tr (fst (fst a)))) (map key l)).
  { induction l as [|p l IH]; simpl; intro Hl; auto.
    destruct (I_hist _ _ _ I _ p Hin (Hl p (or_introl eq_refl))) as [R _]. rewrite R, negb_involutive.
    rewrite <- IH by auto. destruct (p_freed p =? 0); auto. }
  rewrite F by auto. rewrite A. clear.
  induction (owned ex (is_outermost tr i) tr i) as [|x l IH]; auto.
  simpl. rewrite filter_app, IH. simpl. destruct (negb (released tr (fst (fst x)))); simpl; auto. rewrite app_nil_r. auto.
Qed.

(** group contents *)
Fixpoint sizes_bytes (l : list (N * N)) : N := match l with [] => 0 | (x, n) :: r => x * n + sizes_bytes r end.
Fixpoint group_sizes (gs : list leak) (bt : N) : list (N * N) :=
  match gs with [] => [] | g :: r => if l_bt g =? bt then l_sizes g else group_sizes r bt end.

Lemma sizes_add_count : forall l x s, sizes_count (sizes_add l x) s = sizes_count l s + (if x =? s then 1 else 0).
Proof.
  induction l as [|[y n] l IH]; intros x s; cbn [sizes_add sizes_count].
  - lia.
  - destruct (N.eqb_spec y x); cbn [sizes_count].
    + subst. destruct (x =? s); lia.
    + rewrite IH. lia.
Qed.
Lemma sizes_add_bytes : forall l x, sizes_bytes (sizes_add l x) = sizes_bytes l + x.
Proof.
  induction l as [|[y n] l IH]; intro x; cbn [sizes_add sizes_bytes].
  - lia.
  - destruct (N.eqb_spec y x); cbn [sizes_bytes]; [subst; lia|rewrite IH; lia].
Qed.
Lemma group_add : forall gs p s bt bt', group_sizes (leaky_add gs p s bt) bt' =
  if bt =? bt' then sizes_add (group_sizes gs bt') s else group_sizes gs bt'.
Proof.
  induction gs as [|g gs IH]; intros p s bt bt'; cbn [leaky_add group_sizes l_bt l_sizes].
  - destruct (N.eqb_spec bt bt'); auto.
  - destruct (N.eqb_spec (l_bt g) bt) as [E|E]; cbn [group_sizes l_bt l_sizes].
    + destruct (N.eqb_spec (l_bt g) bt'), (N.eqb_spec bt bt'); auto; congruence.
    + rewrite IH. destruct (N.eqb_spec (l_bt g) bt'), (N.eqb_spec bt bt'); auto; congruence.
Qed.
Lemma bts_add : forall gs p s bt x, In x (map l_bt (leaky_add gs p s bt)) <-> x = bt \/ In x (map l_bt gs).
Proof.
  induction gs as [|g gs IH]; intros p s bt x; cbn [leaky_add map In l_bt].
  - intuition.
  - destruct (N.eqb_spec (l_bt g) bt) as [E|E]; cbn [map In l_bt]; [|rewrite IH]; intuition congruence.
Qed.
Lemma nodup_add : forall gs p s bt, NoDup (map l_bt gs) -> NoDup (map l_bt (leaky_add gs p s bt)).
Proof.
  induction gs as [|g gs IH]; intros p s bt H; cbn [leaky_add map l_bt].
  - repeat constructor. auto.
  - inversion H; subst. destruct (N.eqb_spec (l_bt g) bt) as [E|E]; cbn [map l_bt]; constructor; auto.
    rewrite bts_add. intuition.
Qed.
Lemma sizes_keys_add : forall l x s, In s (map fst (sizes_add l x)) <-> s = x \/ In s (map fst l).
Proof.
  induction l as [|[y n] l IH]; intros x s; cbn [sizes_add map In fst].
  - intuition.
  - destruct (N.eqb_spec y x); cbn [map In fst]; [|rewrite IH]; intuition congruence.
Qed.
Definition good_sizes (l : list (N * N)) : Prop := l <> [] /\ NoDup (map fst l) /\ forall s n, In (s, n) l -> 1 <= n.
Lemma good_sizes_add : forall l x, (l = [] \/ good_sizes l) -> good_sizes (sizes_add l x).
Proof.
  intros l x H. assert (H' : NoDup (map fst l) /\ forall s n, In (s, n) l -> 1 <= n).
  { destruct H as [->|(_ & A & B)]; auto. split; [constructor|intros s n []]. }
  clear H. destruct H' as [A B]. split; [|split].
  - destruct l as [|[y n] l]; simpl; [discriminate|]. destruct (y =? x); discriminate.
  - induction l as [|[y n] l IH]; cbn [sizes_add map fst].
    + repeat constructor. auto.
    + inversion A; subst. destruct (N.eqb_spec y x); cbn [map fst]; constructor; auto.
      * rewrite sizes_keys_add. intuition.
      * apply IH; auto. intros s0 m0 Hm0. apply (B s0 m0). right. auto.
  - induction l as [|[y n] l IH]; cbn [sizes_add]; intros s m.
    + intros [E|[]]. injection E as <- <-. lia.
    + inversion A; subst. destruct (N.eqb_spec y x).
      * intros [E|E]; [injection E as <- <-; lia|]. apply (B s m). right. auto.
      * intros [E|E]; [injection E as <- <-; apply (B y n); left; auto|].
        apply (IH H2) with (s := s); auto. intros s0 m0 Hm0. apply (B s0 m0). right. auto.
Qed.
Lemma good_groups_add : forall gs p s bt, (forall g, In g gs -> good_sizes (l_sizes g)) ->
  forall g, In g (leaky_add gs p s bt) -> good_sizes (l_sizes g).
Proof.
  induction gs as [|g0 gs IH]; intros p s bt H g; cbn [leaky_add].
  - intros [<-|[]]. cbn [l_sizes]. apply good_sizes_add. auto.
  - destruct (l_bt g0 =? bt).
    + intros [<-|Hg]; [|apply H; right; auto]. cbn [l_sizes]. apply good_sizes_add. right. apply H. left. auto.
    + intros [<-|Hg]; [apply H; left; auto|]. apply (IH p s bt); auto. intros. apply H. right. auto.
Qed.

Lemma leaky_fold : forall l gs, NoDup (map l_bt gs) -> (forall g, In g gs -> good_sizes (l_sizes g)) ->
  let gs' := fold_left (fun k p => if p_freed p =? 0 then leaky_add k (p_ptr p) (p_size p) (p_bt p) else k) l gs in
  let un := map key (filter (fun p => p_freed p =? 0) l) in
  NoDup (map l_bt gs') /\ (forall g, In g gs' -> good_sizes (l_sizes g)) /\
  (forall bt s, sizes_count (group_sizes gs' bt) s = sizes_count (group_sizes gs bt) s + count_bs un bt s) /\
  (forall bt, sizes_bytes (group_sizes gs' bt) = sizes_bytes (group_sizes gs bt) + bytes_bt un bt) /\
  (forall bt, In bt (map l_bt gs') <-> In bt (map l_bt gs) \/ In bt (map snd un)).
Proof.
  induction l as [|p l IH]; intros gs N1 G1 gs' un.
  - unfold gs', un. simpl. split; auto. split; auto. unfold count_bs, bytes_bt. simpl. repeat split; intros; try lia; tauto.
  - unfold gs', un. cbn [fold_left filter]. destruct (p_freed p =? 0) eqn:F.
    + destruct (IH (leaky_add gs (p_ptr p) (p_size p) (p_bt p)) (nodup_add _ _ _ _ N1) (good_groups_add _ _ _ _ G1))
        as (A & B & C & D & E).
      split; auto. split; auto. cbn [map]. split; [|split].
      * intros bt s. rewrite C, group_add. unfold count_bs. cbn [filter key snd fst].
        destruct (N.eqb_spec (p_bt p) bt); cbn [andb]; [|auto].
        rewrite sizes_add_count. destruct (p_size p =? s); cbn [length]; lia.
      * intro bt. rewrite D, group_add. unfold bytes_bt. cbn [filter key snd fst].
        destruct (N.eqb_spec (p_bt p) bt); [|auto]. rewrite sizes_add_bytes.
        match goal with |- context [bytes_of (?k :: ?r)] => change (bytes_of (k :: r)) with (p_size p + bytes_of r) end. lia.
      * intro bt. rewrite E, bts_add. cbn [map In key snd]. intuition.
    + apply IH; auto.
Qed.

Lemma group_In : forall gs g, NoDup (map l_bt gs) -> In g gs -> group_sizes gs (l_bt g) = l_sizes g.
Proof.
  induction gs as [|a gs IH]; simpl; intros g N0 H; [destruct H|]. inversion N0; subst.
  destruct H as [->|H]; [rewrite N.eqb_refl; auto|].
  destruct (N.eqb_spec (l_bt a) (l_bt g)) as [E|E]; [|auto]. exfalso. apply H2. rewrite E. apply in_map. auto.
Qed.

Lemma fold_w64 : forall l s, fold_left (fun s p => w64 (s + fst p * snd p)) l s = match l with [] => s | _ => w64 (s + sizes_bytes l) end.
Proof.
  induction l as [|[x n] l IH]; intro s; auto. cbn [fold_left fst snd]. rewrite IH. unfold w64. destruct l.
  - simpl. rewrite N.add_0_r. auto.
  - cbn [sizes_bytes]. rewrite N.add_mod_idemp_l by discriminate. rewrite N.add_assoc. reflexivity.
Qed.

Lemma count_rev : forall l bt s, count_bs (rev l) bt s = count_bs l bt s.
Proof.
  intros. unfold count_bs. f_equal. apply Permutation_length. rewrite <- (rev_involutive l) at 2.
  apply Permutation_sym. clear. induction (rev l) as [|x r IH]; simpl; auto.
  rewrite filter_app. simpl. eapply Permutation_trans; [apply Permutation_app_comm|].
  destruct ((snd x =? bt) && (snd (fst x) =? s)); simpl; auto.
Qed.
Lemma bytes_of_perm : forall a b, Permutation a b -> bytes_of a = bytes_of b.
Proof. unfold bytes_of. induction 1; simpl; lia. Qed.
Lemma filter_rev_perm : forall (f : N * N * N -> bool) l, Permutation (filter f (rev l)) (filter f l).
Proof.
  induction l as [|x l IH]; simpl; auto. rewrite filter_app. simpl.
  eapply Permutation_trans; [apply Permutation_app_comm|]. destruct (f x); simpl; auto.
Qed.

Lemma leak_report : forall tr st st' fs, history ps ex tr st -> step ps ex st Pop = Some (st', OFails fs) ->
  (forall b p, hd_error (blocks st) = Some b -> In p (b_pieces b) -> p_vtimes p = 0) ->
  exists a, scope_attrs tr 0 = Some a /\
   (a_noleak a = true -> fs = []) /\
   (a_noleak a = false ->
     (fs = [] <-> unreleased ex tr 0 = []) /\
     NoDup (map leak_bt fs) /\
     (forall f, In f fs -> exists bt sizes, leak_of f = Some (bt, bytes_bt (unreleased ex tr 0) bt mod 2 ^ 64, sizes) /\
        NoDup (map fst sizes) /\
        forall s, sizes_count sizes s = count_bs (unreleased ex tr 0) bt s) /\
     (forall q s bt, In (q, s, bt) (unreleased ex tr 0) -> exists f, In f fs /\ leak_bt f = Some bt)).
Proof.
  intros tr st st' fs H HP NV. cbn [step] in HP. unfold stack_pop in HP.
  pose proof (history_inv ps ex ps_pow2 _ _ H) as I.
  destruct (blocks st) as [|b bs] eqn:E; [discriminate|]. injection HP as <- <-.
  assert (Hb : nth_error (blocks st) 0 = Some b) by (rewrite E; auto). rewrite E in Hb.
  destruct (I_own _ _ _ I _ _ Hb) as [_ A]. exists (b_attrs b). split; auto.
  pose proof (live_keys _ _ _ _ I Hb) as LK.
  unfold block_check.
  assert (F : filter (fun p => negb (p_vtimes p =? 0)) (b_pieces b) = []).
  { specialize (NV b). cbn [hd_error] in NV. clear -NV. induction (b_pieces b) as [|p l IH]; auto. cbn [filter].
    rewrite (NV p eq_refl (or_introl eq_refl)). cbn. apply IH. intros q _ Hq. apply NV; auto. right. auto. }
  rewrite F. split; intro NL; rewrite NL; auto.
  destruct (leaky_fold (b_pieces b) [] (NoDup_nil _) ltac:(intros g [])) as (B1 & B2 & B3 & B4 & B5).
  fold (leaky_of (b_pieces b)) in *. rewrite LK in B3, B4, B5. set (gs := leaky_of (b_pieces b)) in *.
  set (un := unreleased ex tr 0) in *.
  assert (Hnil : gs = [] <-> un = []).
  { split; intro Z.
    - destruct un as [|[[q s] bt] r] eqn:Eu; auto. exfalso. specialize (B5 bt). rewrite Z in B5. simpl in B5.
      apply B5. right. rewrite map_app. apply in_or_app. right. simpl. auto.
    - rewrite Z in B5. simpl in B5. destruct gs as [|g r]; auto. exfalso. specialize (B5 (l_bt g)). simpl in B5. tauto. }
  split; [|split; [|split]].
  - rewrite <- Hnil. split; intro Z; [destruct gs; auto; discriminate|rewrite Z; auto].
  - rewrite map_map. unfold leak_bt. cbn [leak_of leak_fail option_map fst].
    rewrite <- (map_map l_bt Some). clear -B1. induction (map l_bt gs) as [|x l IH]; simpl; constructor; inversion B1; subst; auto.
    intro Z. apply in_map_iff in Z. destruct Z as (y & Y1 & Y2). injection Y1 as ->. contradiction.
  - intros f Hf. apply in_map_iff in Hf. destruct Hf as (g & <- & Hg). pose proof (group_In _ _ B1 Hg) as G.
    exists (l_bt g), (l_sizes g). unfold leak_fail. cbn [leak_of].
    specialize (B4 (l_bt g)). rewrite G in B4. cbn [group_sizes sizes_bytes] in B4.
    destruct (B2 _ Hg) as (S1 & S2 & _). rewrite fold_w64. destruct (l_sizes g) as [|z sz] eqn:Ez; [contradiction|].
    split; [|split; auto].
    + rewrite B4. unfold w64. do 2 f_equal. unfold bytes_bt. rewrite !N.add_0_l. f_equal. f_equal. apply bytes_of_perm. apply filter_rev_perm.
    + intro s. specialize (B3 (l_bt g) s). rewrite G in B3. rewrite B3. cbn [group_sizes sizes_count]. rewrite count_rev. lia.
  - intros q s bt Hq. assert (Z : In bt (map l_bt gs)).
    { apply B5. right. apply in_map_iff. exists (q, s, bt). split; auto. apply in_rev in Hq. auto. }
    apply in_map_iff in Z. destruct Z as (g & <- & Hg). exists (leak_fail g). split; [apply in_map; auto|]. reflexivity.
Qed.

(** a violation takes precedence and is reported for every violated piece *)
Lemma violation_report : forall st st' fs b, step ps ex st Pop = Some (st', OFails fs) -> hd_error (blocks st) = Some b ->
  (exists p, In p (b_pieces b) /\ p_vtimes p <> 0) ->
  forall f, In f fs <-> exists p, In p (b_pieces b) /\ p_vtimes p <> 0 /\ f = FViolate (p_ptr p) (p_vptr p) (p_vwrite p) (p_vafter p).
Proof.
  intros st st' fs b HP Hb (p0 & P1 & P2) f. cbn [step] in HP. unfold stack_pop in HP.
  destruct (blocks st) as [|b' bs]; [discriminate|]. injection HP as <- <-. injection Hb as ->.
  assert (V : forall p, In p (filter (fun p => negb (p_vtimes p =? 0)) (b_pieces b)) <-> In p (b_pieces b) /\ p_vtimes p <> 0).
  { intro p. rewrite filter_In, negb_true_iff, N.eqb_neq. tauto. }
  unfold block_check. destruct (filter _ (b_pieces b)) as [|v vs] eqn:E.
  - exfalso. apply (V p0). auto.
  - rewrite in_map_iff. split.
    + intros (p & <- & Hp). apply V in Hp. exists p. tauto.
    + intros (p & A & B & ->). exists p. split; auto. apply V. auto.
Qed.

(** ** C15 *)
Lemma scope_attrs_In : forall tr i a, scope_attrs tr i = Some a -> exists o, In (Push a, o) tr.
Proof.
  induction tr as [|[e o] tr IH]; intros i a H; cbn [scope_attrs] in H; [discriminate|].
  destruct e; try (destruct (IH _ _ H) as [o' Ho]; exists o'; right; exact Ho).
  destruct i as [|j].
  - injection H as ->. exists o. left. auto.
  - destruct (IH _ _ H) as [o' Ho]. exists o'. right. auto.
Qed.

Lemma live_sum_bytes : forall tr bs i b, Inv ex tr bs -> nth_error bs i = Some b -> live_sum (b_pieces b) = live_bytes ex tr i.
Proof.
  intros tr bs i b I Hb. unfold live_sum, live_bytes. rewrite (live_keys _ _ _ _ I Hb).
  apply bytes_of_perm. apply Permutation_sym, Permutation_rev.
Qed.

Definition Acc (tr : trace) (bs : list block) : Prop :=
  no_double_report tr -> limits_ok tr -> forall i b, nth_error bs i = Some b ->
    (forall p, In p (b_pieces b) -> p_freed p <= 1) /\ b_allocated b = live_sum (b_pieces b) /\
    live_sum (b_pieces b) <= a_limit (b_attrs b) /\ b_footprint b = peak ex tr i /\ live_sum (b_pieces b) <= b_footprint b.

Lemma live_sum_app : forall a b, live_sum (a ++ b) = live_sum a + live_sum b.
Proof.
  intros. unfold live_sum. rewrite filter_app, map_app. unfold bytes_of. rewrite fold_right_app.
  generalize (map key (filter (fun p => p_freed p =? 0) a)) as l. intro l.
  set (z := fold_right _ 0 _). clearbody z. induction l as [|x l IH]; simpl; lia.
Qed.
Lemma live_sum_cons : forall p l, live_sum (p :: l) = (if p_freed p =? 0 then p_size p else 0) + live_sum l.
Proof. intros. unfold live_sum. cbn [filter]. destruct (p_freed p =? 0); auto. Qed.

Lemma core_live : forall l l', map core l = map core l' -> live_sum l = live_sum l'.
Proof.
  induction l as [|p l IH]; intros [|p' l'] H; try discriminate; auto.
  cbn [map] in H. assert (HC : core p = core p') by congruence. assert (HR : map core l = map core l') by congruence.
  rewrite !live_sum_cons, (IH l' HR). unfold core in HC. injection HC as _ _ HS _ _ _ HF. rewrite HS, HF. auto.
Qed.
Lemma core_freed : forall l l' p', map core l = map core l' -> In p' l' -> exists p, In p l /\ p_freed p = p_freed p'.
Proof.
  intros l l' p' H Hp. apply (in_map core) in Hp. rewrite <- H in Hp. apply in_map_iff in Hp.
  destruct Hp as (p & A & B). exists p. split; auto. unfold core in A. injection A. auto.
Qed.

Lemma peak_other : forall e o tr i, (forall a, e <> Push a) -> e <> Pop ->
  peak ex ((e, o) :: tr) i = N.max (live_bytes ex ((e, o) :: tr) i) (peak ex tr i).
Proof. intros e o tr i H1 H2. destruct e; try reflexivity; [exfalso; eapply H1; eauto|contradiction]. Qed.

Lemma no_double_tail : forall x tr, no_double_report (x :: tr) -> no_double_report tr.
Proof. intros x tr H e p Hin. apply (H e p). right. auto. Qed.
Lemma limits_tail : forall x tr, limits_ok (x :: tr) -> limits_ok tr.
Proof. intros x tr H a o Hin. apply (H a o). right. auto. Qed.

Lemma acc_step : forall tr st e st' o, Inv ex tr (blocks st) -> Acc tr (blocks st) -> enabled ps ex st e ->
  step ps ex st e = Some (st', o) -> Inv ex ((e, o) :: tr) (blocks st') -> Acc ((e, o) :: tr) (blocks st').
Proof.
  intros tr st e st' o I A En HS I' ND LO.
  specialize (A (no_double_tail _ _ ND) (limits_tail _ _ LO)).
  assert (Hold : forall i b b', nth_error (blocks st) i = Some b -> nth_error (blocks st') i = Some b' -> same b b' ->
     (forall a, e <> Push a) -> e <> Pop ->
     (forall p, In p (b_pieces b') -> p_freed p <= 1) /\ b_allocated b' = live_sum (b_pieces b') /\
     live_sum (b_pieces b') <= a_limit (b_attrs b') /\ b_footprint b' = peak ex ((e, o) :: tr) i /\ live_sum (b_pieces b') <= b_footprint b').
  { intros i b b' Hb Hb' (S1 & S2 & S3 & S4) E1 E2. destruct (A i b Hb) as (A1 & A2 & A3 & A4 & A5).
    pose proof (core_live _ _ S4) as L. rewrite <- L, <- S1, <- S2, <- S3.
    split; [|split; [|split; [|split]]]; auto.
    - intros p' Hp. destruct (core_freed _ _ _ S4 Hp) as (p & X & <-). auto.
    - rewrite peak_other by auto. rewrite <- (live_sum_bytes _ _ _ _ I' Hb'). rewrite <- L. lia. }
  intros i b' Hb'.
  destruct e as [a| |who size al fill bt base|who ptr|a bt|a v bt]; cbn [step] in HS.
  - injection HS as <- <-. cbn [blocks stack_push] in Hb'. destruct i as [|i]; cbn [nth_error] in Hb'.
    + injection Hb' as <-. cbn [peak b_pieces b_allocated b_attrs b_footprint]. change (live_sum []) with 0. split; [intros p []|]. repeat split; lia.
    + cbn [peak]. apply A. auto.
  - unfold stack_pop in HS. destruct (blocks st) as [|b0 bs] eqn:E; [discriminate|]. injection HS as <- <-.
    cbn [peak]. apply (A (S i)). auto.
  - destruct (stack_new ps ex st base who size al fill bt) as [st1 r] eqn:E.
    injection HS as <- <-. pose proof (stack_new_spec ps ex _ _ _ _ _ _ _ _ _ E) as S.
    destruct r as [p|].
    + destruct S as (b & T & Nb & Lim & Hp & Hbs & _). cbv zeta in Hp.
      destruct (Nat.eq_dec i (index ex st bt)) as [->|Hi].
      * destruct (A _ _ Nb) as (A1 & A2 & A3 & A4 & A5). destruct (I_own _ _ _ I _ _ Nb) as [_ SA].
        destruct (scope_attrs_In _ _ _ SA) as [oo Hpush].
        assert (Hlim : a_limit (b_attrs b) < 2 ^ 63) by (apply (LO _ oo); right; auto).
        destruct En as [Hs _].
        assert (W : w64 (b_allocated b + size) = b_allocated b + size) by (apply N.mod_small; rewrite A2; lia).
        assert (Hls : live_sum (b_pieces b ++ [p]) = live_sum (b_pieces b) + size).
        { rewrite live_sum_app, live_sum_cons. rewrite Hp. cbn [p_freed piece_new p_size]. rewrite N.eqb_refl. unfold live_sum at 2. simpl. lia. }
        rewrite peak_other by (try discriminate; intros; discriminate).
        rewrite <- (live_sum_bytes _ _ _ _ I' Hb').
        rewrite Hbs, (nth_upd_same _ _ _ _ _ Nb) in Hb'. injection Hb' as <-. cbn [b_pieces b_allocated b_attrs b_footprint].
        rewrite Hls, W, A2 in *. split; [|split; [|split; [|split]]]; try lia.
        intros q Hq. apply in_app_or in Hq. destruct Hq as [Hq|[<-|[]]]; auto. rewrite Hp. cbn. lia.
      * assert (Hb2 := Hb'). rewrite Hbs, nth_upd_other in Hb2 by auto.
        apply (Hold i b' b'); auto; try discriminate. apply same_refl.
    + destruct S as [-> _]. apply (Hold i b' b'); auto; try discriminate. apply same_refl.
  - unfold stack_rel in HS. pose proof (blocks_rel_spec ps ex (memo st) who ptr (blocks st)) as S.
    destruct (blocks_rel ps ex (memo st) (blocks st) who ptr) as [[bs f]|].
    + injection HS as <- <-. cbn [blocks] in *.
      destruct S as (c & b & l1 & p & l2 & Nb & Hl & Hptr & Hbs & Hf).
      destruct (Nat.eq_dec i c) as [->|Hi].
      * destruct (A _ _ Nb) as (A1 & A2 & A3 & A4 & A5).
        assert (F0 : p_freed p = 0).
        { destruct (N.eq_dec (p_freed p) 0) as [|F]; auto. exfalso. unfold piece_free in Hf. cbv zeta in Hf.
          apply N.eqb_neq in F. rewrite F in Hf. cbn in Hf. eapply ND. left. rewrite Hf. reflexivity. }
        rewrite peak_other by (try discriminate; intros; discriminate).
        rewrite <- (live_sum_bytes _ _ _ _ I' Hb').
        rewrite Hbs, (nth_upd_same _ _ _ _ _ Nb) in Hb'. match type of Hb' with Some ?x = Some ?y => assert (Eb : y = x) by congruence end. clear Hb'. subst b'. cbn [b_pieces b_allocated b_attrs b_footprint].
        pose proof (piece_free_core ps ex (memo st) p who) as HC. set (p' := fst (piece_free ps ex (memo st) p who)) in *.
        unfold core in HC. injection HC as C1 C2 C3 C4 C5 C6 C7.
        assert (L1 : live_sum (b_pieces b) = live_sum l1 + p_size p + live_sum l2).
        { rewrite Hl, live_sum_app, live_sum_cons, F0. simpl. lia. }
        assert (L2 : live_sum (l1 ++ p' :: l2) = live_sum l1 + live_sum l2).
        { rewrite live_sum_app, live_sum_cons, C7, F0. simpl. lia. }
        destruct (I_own _ _ _ I _ _ Nb) as [_ SA]. destruct (scope_attrs_In _ _ _ SA) as [oo Hpush].
        assert (Hlim : a_limit (b_attrs b) < 2 ^ 63) by (apply (LO _ oo); right; auto).
        assert (W : w64 (b_allocated b + (2 ^ 64 - p_size p)) = live_sum l1 + live_sum l2).
        { unfold w64. replace (b_allocated b + (2 ^ 64 - p_size p)) with (live_sum l1 + live_sum l2 + 1 * 2 ^ 64) by lia.
          rewrite N.mod_add by discriminate. apply N.mod_small. lia. }
        rewrite L2, W. split; [|split; [|split; [|split]]]; try lia.
        intros q Hq. apply in_app_or in Hq. destruct Hq as [Hq|[<-|Hq]].
        -- apply A1. rewrite Hl. apply in_or_app. auto.
        -- rewrite C7. lia.
        -- apply A1. rewrite Hl. apply in_or_app. right. right. auto.
      * assert (Hb2 := Hb'). rewrite Hbs, nth_upd_other in Hb2 by auto.
        apply (Hold i b' b'); auto; try discriminate. apply same_refl.
    + injection HS as <- <-. apply (Hold i b' b'); auto; try discriminate. apply same_refl.
  - injection HS as <- <-. cbn [blocks do_load] in *.
    destruct (same_nth _ _ _ _ (blocks_host_same ps a _ (blocks st) (fun p => access_core p a false bt)) Hb') as (b & X & Y).
    apply (Hold i b b'); auto; discriminate.
  - injection HS as <- <-. cbn [blocks do_store] in *.
    destruct (same_nth _ _ _ _ (blocks_host_same ps a _ (blocks st) (fun p => access_core p a true bt)) Hb') as (b & X & Y).
    apply (Hold i b b'); auto; discriminate.
Qed.

Lemma history_acc : forall tr st, history ps ex tr st -> Acc tr (blocks st).
Proof.
  intros tr st H. induction H.
  - intros _ _ i b Hb. destruct i; discriminate.
  - pose proof (history_inv ps ex ps_pow2 _ _ H) as I. eapply acc_step; eauto. eapply inv_step; eauto.
  - auto.
Qed.

Lemma depth_nth : forall tr st i, history ps ex tr st -> (i < depth tr)%nat -> exists b, nth_error (blocks st) i = Some b.
Proof.
  intros tr st i H Hi. pose proof (history_inv ps ex ps_pow2 _ _ H) as I. rewrite <- (I_len _ _ _ I) in Hi.
  destruct (nth_error (blocks st) i) eqn:E; eauto. apply nth_error_None in E. lia.
Qed.

Lemma limit_never_exceeded : forall tr st i a, history ps ex tr st -> no_double_report tr -> limits_ok tr ->
  (i < depth tr)%nat -> scope_attrs tr i = Some a -> live_bytes ex tr i <= a_limit a.
Proof.
  intros tr st i a H ND LO Hi Ha. destruct (depth_nth tr st i H Hi) as [b Hb].
  pose proof (history_inv ps ex ps_pow2 _ _ H) as I.
  destruct (history_acc _ _ H ND LO i b Hb) as (_ & _ & A & _). rewrite <- (live_sum_bytes _ _ _ _ I Hb).
  destruct (I_own _ _ _ I _ _ Hb) as [_ B]. congruence.
Qed.

Lemma refused_iff : forall tr st who size al fill bt base st' r a, history ps ex tr st -> no_double_report tr -> limits_ok tr ->
  enabled ps ex st (Alloc who size al fill bt base) -> (0 < depth tr)%nat ->
  step ps ex st (Alloc who size al fill bt base) = Some (st', OPtr r) ->
  scope_attrs tr (charged ex tr bt) = Some a ->
  (r = None <-> a_limit a < live_bytes ex tr (charged ex tr bt) + size).
Proof.
  intros tr st who size al fill bt base st' r a H ND LO [Hs _] Hd HS Ha.
  pose proof (history_inv ps ex ps_pow2 _ _ H) as I.
  assert (Hidx : charged ex tr bt = index ex st bt).
  { unfold charged, index. rewrite <- (I_len _ _ _ I). auto. }
  assert (exists b, target ex st bt = Some b /\ nth_error (blocks st) (index ex st bt) = Some b) as (b & Ht & Hb).
  { rewrite <- (I_len _ _ _ I) in Hd. unfold target, index. destruct (ex bt).
    - destruct (rev (blocks st)) as [|b r0] eqn:E.
      + apply (f_equal (@rev _)) in E. rewrite rev_involutive in E. rewrite E in Hd. simpl in Hd. lia.
      + exists b. split; auto. eapply hd_rev_nth; eauto.
    - destruct (blocks st) as [|b r0]; simpl in Hd; [lia|]. exists b. auto. }
  destruct (history_acc _ _ H ND LO _ b Hb) as (_ & A & B & _).
  destruct (I_own _ _ _ I _ _ Hb) as [_ SA]. rewrite Hidx in *. assert (a = b_attrs b) by congruence. subst a.
  destruct (scope_attrs_In _ _ _ SA) as [oo Hpush].
  assert (Hlim : a_limit (b_attrs b) < 2 ^ 63) by (apply (LO _ oo); auto).
  assert (W : w64 (b_allocated b + size) = live_bytes ex tr (index ex st bt) + size).
  { rewrite <- (live_sum_bytes _ _ _ _ I Hb). rewrite <- A. apply N.mod_small. lia. }
  cbn [step] in HS. destruct (stack_new ps ex st base who size al fill bt) as [st1 r1] eqn:E. injection HS as <- <-.
  pose proof (stack_new_spec ps ex _ _ _ _ _ _ _ _ _ E) as S. destruct r1 as [p|].
  - destruct S as (b1 & T1 & _ & L & _). assert (b1 = b) by congruence. subst b1. rewrite W in L. split; [discriminate|lia].
  - destruct S as [_ S]. specialize (S b Ht). rewrite W in S. split; auto.
Qed.

Lemma footprint_is_peak : forall tr st i b, history ps ex tr st -> no_double_report tr -> limits_ok tr ->
  nth_error (blocks st) i = Some b -> b_footprint b = peak ex tr i.
Proof. intros tr st i b H ND LO Hb. destruct (history_acc _ _ H ND LO i b Hb) as (_ & _ & _ & A & _). auto. Qed.

(** ** contents: C16 and fills *)
Lemma new_contents : forall tr st who size al fill bt base st' q, history ps ex tr st ->
  enabled ps ex st (Alloc who size al fill bt base) ->
  step ps ex st (Alloc who size al fill bt base) = Some (st', OPtr (Some q)) ->
  exists b, target ex st bt = Some b /\
   (forall k, k < size -> memo st' (q + k) =
      match (match fill with Some c => [c] | None => a_fill (b_attrs b) end) with
      | [] => memo st (q + k)
      | s => nth (N.to_nat (k mod N.of_nat (length s))) s 0
      end) /\
   (forall b0 p x, In b0 (blocks st) -> In p (b_pieces b0) -> within x (p_page p) (p_grd p + ps) -> memo st' x = memo st x) /\
   (forall b0 p, In b0 (blocks st) -> In p (b_pieces b0) -> forall k, k < size -> ~ within (q + k) (p_page p) (p_grd p + ps)).
Proof.
  intros tr st who size al fill bt base st' q H En HS.
  pose proof (history_inv ps ex ps_pow2 _ _ H) as I.
  cbn [step] in HS. destruct (stack_new ps ex st base who size al fill bt) as [st1 r1] eqn:E. injection HS as <- Hq.
  pose proof (stack_new_spec ps ex _ _ _ _ _ _ _ _ _ E) as S. destruct r1 as [p|]; [|discriminate]. injection Hq as Hq.
  destruct S as (b & T & Nb & Lim & Hp & Hbs & Hm). cbv zeta in Hp. exists b. split; auto.
  destruct En as [Hs Hfr]. specialize (Hfr b T). cbv zeta in Hfr. destruct Hfr as [Hal (F0 & F1 & F2 & F3)].
  set (al' := if al =? 0 then a_align (b_attrs b) else al) in *.
  destruct (piece_geo ps ps_pow2 ((flower st + 1) mod 256) base size al' who bt Hs Hal F1 F2) as (P1 & P2 & P3 & P4).
  assert (P5 : p_size p = size) by (rewrite Hp; auto).
  rewrite <- Hp in P1, P2, P3, P4. clear Hp. rewrite Hm.
  pose proof (ps_pos ps ps_pow2) as Hps.
  set (s := match fill with Some c => [c] | None => a_fill (b_attrs b) end).
  assert (G : forall b0 p0, In b0 (blocks st) -> In p0 (b_pieces b0) -> p_grd p + ps <= p_page p0 \/ p_grd p0 + ps <= p_page p).
  { intros b0 p0 X Y. rewrite P3, P4. apply (F3 _ _ X Y). }
  subst q. split; [|split].
  - intros k Hk. rewrite P5 in *.
    assert (Hmark : mark_snowfield (memo st) (p_page p) (p_ptr p) size (p_grd p) (p_flower p) (p_ptr p + k) = memo st (p_ptr p + k)).
    { apply mark_frame; try lia. right. split; lia. }
    unfold fill_bytes. destruct s as [|c s]; auto.
    destruct (N.leb_spec (p_ptr p) (p_ptr p + k)); [|lia]. destruct (N.ltb_spec (p_ptr p + k) (p_ptr p + size)); [|lia].
    cbn [andb]. replace (p_ptr p + k - p_ptr p) with k by lia. auto.
  - intros b0 p0 x X Y [Z1 Z2]. specialize (G _ _ X Y). rewrite P5 in *.
    assert (Hmark : mark_snowfield (memo st) (p_page p) (p_ptr p) size (p_grd p) (p_flower p) x = memo st x).
    { apply mark_frame; try lia. left. intros [W1 W2]. lia. }
    unfold fill_bytes. destruct s as [|c s]; auto.
    destruct (N.leb_spec (p_ptr p) x); destruct (N.ltb_spec x (p_ptr p + size)); cbn [andb]; auto. exfalso. lia.
  - intros b0 p0 X Y k Hk [Z1 Z2]. specialize (G _ _ X Y). lia.
Qed.

Lemma calloc_contents : forall tr st count size bt base st' q, history ps ex tr st -> size * count < 2 ^ 64 ->
  enabled ps ex st (Alloc (str "calloc") (size * count) 0 (Some 0) bt base) -> do_calloc ps ex st base count size bt = (st', Some q) ->
  (forall k, k < size * count -> memo st' (q + k) = 0) /\
  history ps ex ((Alloc (str "calloc") (size * count) 0 (Some 0) bt base, OPtr (Some q)) :: tr) st'.
Proof.
  intros tr st count size bt base st' q H B En E. unfold do_calloc in E.
  assert (W : w64 (size * count) = size * count) by (apply N.mod_small; exact B). rewrite W in E.
  assert (HS : step ps ex st (Alloc (str "calloc") (size * count) 0 (Some 0) bt base) = Some (st', OPtr (Some q))).
  { cbn [step]. destruct (stack_new ps ex st base (str "calloc") (size * count) 0 (Some 0) bt) as [s1 r1]. injection E as -> ->. reflexivity. }
  split; [|eapply h_step; eassumption]. destruct (new_contents _ _ _ _ _ _ _ _ _ _ H En HS) as (b & _ & C & _). intros k K. rewrite (C k K).
  cbn [length]. rewrite N.mod_1_r. reflexivity.
Qed.

Lemma stack_get_spec : forall st ptr, match stack_get st ptr with
  | Some o => exists b, In b (blocks st) /\ In o (b_pieces b) /\ p_ptr o = ptr
  | None => ~ tracked st ptr end.
Proof.
  intros st ptr. unfold stack_get. destruct (find _ _) as [o|] eqn:E.
  - apply find_some in E. destruct E as [A B]. apply N.eqb_eq in B. apply in_flat_map in A. destruct A as (b & X & Y). eauto.
  - intros (b & p & X & Y & Z). apply (find_none _ _ E p) in Z || idtac.
    pose proof (find_none _ _ E p (in_flat _ _ _ X Y)) as W. cbn in W. apply N.eqb_neq in W. contradiction.
Qed.

Lemma realloc_success : forall tr st base ptr size bt o st' q f, history ps ex tr st ->
  stack_get st ptr = Some o -> size <> 0 ->
  enabled ps ex st (Alloc (str "realloc") size 0 None bt base) ->
  do_realloc ps ex st base ptr size bt = (st', Some q, f) ->
  (forall k, k < N.min (p_size o) size -> memo st' (q + k) = memo st (ptr + k)) /\
  history ps ex ((Rel (str "free") ptr, OFail f) :: (Alloc (str "realloc") size 0 None bt base, OPtr (Some q)) :: tr) st' /\
  (forall b p x, In b (blocks st) -> In p (b_pieces b) -> within x (p_page p) (p_grd p + ps) -> memo st' x = memo st x).
Proof.
  intros tr st base ptr size bt o st' q f H Hg Hs En HR.
  pose proof (stack_get_spec st ptr) as G. rewrite Hg in G. destruct G as (b0 & G1 & G2 & G3).
  pose proof (history_inv ps ex ps_pow2 _ _ H) as I.
  unfold do_realloc in HR. rewrite Hg in HR. apply N.eqb_neq in Hs. rewrite Hs in HR.
  destruct (stack_new ps ex st base (str "realloc") size 0 None bt) as [st1 np] eqn:E.
  destruct np as [n|].
  2:{ destruct (stack_rel ps ex st1 (str "free") ptr) as [s3 f3]. discriminate. }
  cbv beta iota zeta in HR.
  destruct (stack_rel ps ex _ (str "free") ptr) as [s3 f3] eqn:ER. injection HR as <- <- <-. 
  assert (HS : step ps ex st (Alloc (str "realloc") size 0 None bt base) = Some (st1, OPtr (Some (p_ptr n)))).
  { cbn [step]. rewrite E. reflexivity. }
  destruct (new_contents _ _ _ _ _ _ _ _ _ _ H En HS) as (b & T & C1 & C2 & C3).
  assert (H1 := h_step ps ex _ _ _ _ _ H En HS).
  set (mm := memcpy _ _ _ _) in ER.
  assert (H2 := h_mem ps ex _ _ mm H1).
  assert (M3 : memo s3 = mm).
  { unfold stack_rel in ER. destruct (blocks_rel _ _ _ _ _ _) as [[bs ff]|]; injection ER as <- <-; auto. }
  destruct (I_geo _ _ _ I _ _ G1 G2) as [Geo1 Geo2]. pose proof (ps_pos ps ps_pow2) as Hps.
  split; [|split].
  - intros k Hk. rewrite M3. unfold mm, memcpy.
    destruct (N.leb_spec (p_ptr n) (p_ptr n + k)); [|lia].
    destruct (N.ltb_spec (p_ptr n + k) (p_ptr n + N.min (p_size o) size)); [|lia]. cbn [andb].
    replace (p_ptr n + k - p_ptr n) with k by lia. rewrite G3. apply (C2 b0 o); auto. subst ptr. split; lia.
  - eapply h_step; [exact H2|exact Logic.I|]. cbn [step]. rewrite ER. reflexivity.
  - intros b1 p x X Y Z. rewrite M3. unfold mm, memcpy.
    destruct (N.leb_spec (p_ptr n) x) as [L1|L1]; destruct (N.ltb_spec x (p_ptr n + N.min (p_size o) size)) as [L2|L2]; cbn [andb]; try (apply (C2 b1 p x); auto).
    exfalso. apply (C3 b1 p X Y (x - p_ptr n)); [lia|]. replace (p_ptr n + (x - p_ptr n)) with x by lia. auto.
Qed.
End P.

(** ** accesses to protected pages *)
Section V.
Variable ps : N.
Variable ex : N -> bool.

(** a first offending access is recorded with its address and kind *)
Lemma first_offence : forall p a w bt, p_vtimes p = 0 -> denied p a w = true ->
  let p' := access p a w bt in
  p_vtimes p' <> 0 /\ p_vptr p' = a /\ p_vwrite p' = w /\ p_vafter p' = (0 <? p_freed p) /\ p_vbt p' = bt.
Proof.
  intros p a w bt V D. unfold access. rewrite D.
  unfold denied in D. apply andb_true_iff in D. destruct D as [D1 D2].
  assert (E : violate p a bt = mkpiece (p_page p) (p_ptr p) (p_size p) (p_grd p) (p_who p) (p_bt p) (p_freed p) (p_flower p)
      (p_flo p) (p_fhi p) true false 1 a false (0 <? p_freed p) bt).
  { unfold violate. rewrite V. reflexivity. }
  rewrite E. clear E. unfold denied. cbn [p_flo p_fhi p_fr p_fw]. rewrite D1. cbn [andb]. destruct w; cbn [negb].
  - unfold violate. cbn [p_vtimes p_vptr p_vwrite p_vafter p_vbt N.eqb]. rewrite N.eqb_refl. repeat split; auto; discriminate.
  - cbn. repeat split; auto. discriminate.
Qed.

(** later accesses never change the recorded address nor whether it was after release; the kind only if they come
    from the same place *)
Lemma later_access : forall p a w bt, p_vtimes p <> 0 ->
  let p' := access p a w bt in
  p_vtimes p' <> 0 /\ p_vptr p' = p_vptr p /\ p_vafter p' = p_vafter p /\ p_vbt p' = p_vbt p /\
  (bt <> p_vbt p -> p_vwrite p' = p_vwrite p).
Proof.
  assert (K : forall p a bt, p_vtimes p <> 0 -> let p' := violate p a bt in
    p_vtimes p' <> 0 /\ p_vptr p' = p_vptr p /\ p_vafter p' = p_vafter p /\ p_vbt p' = p_vbt p /\ (bt <> p_vbt p -> p_vwrite p' = p_vwrite p)).
  { intros p a bt V. unfold violate. destruct (N.eqb_spec (p_vtimes p) 0); [contradiction|]. cbn. repeat split; auto; try lia.
    intro Hb. apply N.eqb_neq in Hb. rewrite Hb. auto. }
  intros p a w bt V. unfold access. set (p1 := if denied p a w then violate p a bt else p).
  assert (A : p_vtimes p1 <> 0 /\ p_vptr p1 = p_vptr p /\ p_vafter p1 = p_vafter p /\ p_vbt p1 = p_vbt p /\ (bt <> p_vbt p -> p_vwrite p1 = p_vwrite p)).
  { unfold p1. destruct (denied p a w); [apply K; auto|]. repeat split; auto. }
  clearbody p1. destruct A as (A1 & A2 & A3 & A4 & A5). destruct (denied p1 a w).
  - destruct (K p1 a bt A1) as (B1 & B2 & B3 & B4 & B5). cbv zeta. repeat split; try congruence. intro Hb. rewrite B5 by congruence. auto.
  - cbv zeta. auto.
Qed.

(** a cleanly released piece: every access to its pages is an offence *)
Lemma released_denies_all : forall m p who p' a w, piece_free ps ex m p who = (p', None) ->
  within a (p_page p) (p_grd p + ps) -> denied p' a w = true /\ p_fr p' = false /\ p_freed p' <> 0 /\ p_vtimes p' = p_vtimes p.
Proof.
  intros m p who p' a w H [A B]. unfold piece_free in H. cbv zeta in H.
  destruct (negb (p_freed p =? 0)); [discriminate|]. destruct (asymmetric _ _ _ _); [discriminate|].
  destruct (check_snowfield _ _ _ _ _ _) as [[x y]|]; [discriminate|]. injection H as <-.
  unfold denied. cbn [p_flo p_fhi p_fr p_fw p_freed p_vtimes].
  destruct (N.leb_spec (p_page p) a); [|lia]. destruct (N.ltb_spec a (p_grd p + ps)); [|lia].
  repeat split; auto; [destruct w; auto|lia].
Qed.

(** a fresh piece: exactly the writes to its guard page are offences *)
Lemma fresh_denies_guard_writes : forall fl base size al who bt a w,
  let p := piece_new ps fl base size al who bt in
  denied p a w = true <-> w = true /\ within a (p_grd p) (p_grd p + ps).
Proof.
  intros fl base size al who bt a w p. unfold denied, p, piece_new, within. cbn [p_flo p_fhi p_fr p_fw p_grd].
  destruct w; cbn [negb]; rewrite ?andb_true_r, ?andb_false_r.
  - rewrite andb_true_iff, N.leb_le, N.ltb_lt. tauto.
  - split; [discriminate|intros [? _]; discriminate].
Qed.
End V.
