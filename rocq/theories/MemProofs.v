From Coq Require Import List NArith ZArith Bool Lia Arith Permutation.
From Verif Require Import Base PieceModel PieceSpec PieceProofs MemModel MemSpec.
Import ListNotations.
Local Open Scope N_scope.

(** ** lists updated at an index *)
Fixpoint upd {A} (l : list A) (c : nat) (x : A) : list A :=
  match l, c with
  | [], _ => []
  | _ :: r, O => x :: r
  | y :: r, S c' => y :: upd r c' x
  end.

Lemma nth_upd_same : forall A (l : list A) c x b, nth_error l c = Some b -> nth_error (upd l c x) c = Some x.
Proof. induction l as [|y l IH]; destruct c; simpl; intros; try discriminate; eauto. Qed.
Lemma nth_upd_other : forall A (l : list A) c x i, i <> c -> nth_error (upd l c x) i = nth_error l i.
Proof. induction l as [|y l IH]; destruct c, i; simpl; intros; auto; try contradiction. Qed.
Lemma upd_length : forall A (l : list A) c x, length (upd l c x) = length l.
Proof. induction l as [|y l IH]; destruct c; simpl; auto. Qed.
Lemma in_upd : forall A (l : list A) c x y, In y (upd l c x) -> y = x \/ In y l.
Proof.
  induction l as [|z l IH]; destruct c; simpl; intros x y H; auto.
  - destruct H; auto.
  - destruct H as [|H]; auto. apply IH in H. tauto.
Qed.
Lemma update_last_upd : forall A (l : list A) x, update_last l x = upd l (length l - 1) x.
Proof.
  induction l as [|y l IH]; simpl; intro x; auto. destruct l as [|z l]; auto.
  rewrite IH. simpl. rewrite Nat.sub_0_r. reflexivity.
Qed.
Lemma hd_rev_nth : forall A (l : list A) b r, rev l = b :: r -> nth_error l (length l - 1) = Some b.
Proof.
  intros A l b r H. apply (f_equal (@rev A)) in H. rewrite rev_involutive in H. subst. simpl.
  rewrite app_length. simpl. replace (length (rev r) + 1 - 1)%nat with (length (rev r)) by lia.
  rewrite nth_error_app2 by lia. rewrite Nat.sub_diag. reflexivity.
Qed.

Definition key (p : piece) : N * N * N := (p_ptr p, p_size p, p_bt p).
(** the part of a piece that accesses never change *)
Definition core (p : piece) := (p_page p, p_ptr p, p_size p, p_grd p, p_who p, p_bt p, p_freed p).
Definition live_sum (l : list piece) : N := bytes_of (map key (filter (fun p => p_freed p =? 0) l)).

Section P.
Variable ps : N.
Variable ex : N -> bool.
Hypothesis ps_pow2 : pow2 ps.

Lemma ps_pos : 0 < ps.
Proof. destruct ps_pow2 as [k ->]. pose proof (N.pow_nonzero 2 k). lia. Qed.

(** ** effect of the operations on the block list *)
Definition index (st : state) (bt : N) : nat := if ex bt then (length (blocks st) - 1)%nat else 0%nat.

Lemma stack_new_spec : forall st base who size al fill bt st' r,
  stack_new ps ex st base who size al fill bt = (st', r) ->
  match r with
  | None => st' = st /\ forall b, target ex st bt = Some b -> a_limit (b_attrs b) < w64 (b_allocated b + size)
  | Some p => exists b, target ex st bt = Some b /\ nth_error (blocks st) (index st bt) = Some b /\
      w64 (b_allocated b + size) <= a_limit (b_attrs b) /\
      let al' := if al =? 0 then a_align (b_attrs b) else al in
      p = piece_new ps ((flower st + 1) mod 256) base size al' who bt /\
      blocks st' = upd (blocks st) (index st bt)
        (mkblock (b_attrs b) (N.max (b_footprint b) (w64 (b_allocated b + size))) (w64 (b_allocated b + size)) (b_pieces b ++ [p])) /\
      memo st' = fill_bytes (mark_snowfield (memo st) (p_page p) (p_ptr p) (p_size p) (p_grd p) (p_flower p)) (p_ptr p) size
                   (match fill with Some c => [c] | None => a_fill (b_attrs b) end)
  end.
Proof.
  intros st base who size al fill bt st' r. unfold stack_new, target, index.
  assert (Hmax : forall a b, (if a <? b then b else a) = N.max a b).
  { intros a b. destruct (N.ltb_spec a b); lia. }
  destruct (ex bt).
  - destruct (rev (blocks st)) as [|b rr] eqn:E.
    + intro H. injection H as <- <-. split; auto. simpl. discriminate.
    + unfold block_new. destruct (N.ltb_spec (a_limit (b_attrs b)) (w64 (b_allocated b + size))) as [L|L].
      * intro H. injection H as <- <-. split; auto. simpl. intros b0 Hb. injection Hb as <-. auto.
      * intro H. cbv zeta in H. injection H as <- <-. exists b. split; auto. split; [eapply hd_rev_nth; eauto|].
        split; auto. cbn [p_page p_ptr p_size p_grd p_flower blocks memo piece_new]. split; auto. split; auto.
        rewrite update_last_upd, Hmax. reflexivity.
  - destruct (blocks st) as [|b rr] eqn:E.
    + intro H. injection H as <- <-. split; auto. simpl. discriminate.
    + unfold block_new. destruct (N.ltb_spec (a_limit (b_attrs b)) (w64 (b_allocated b + size))) as [L|L].
      * intro H. injection H as <- <-. split; auto. simpl. intros b0 Hb. injection Hb as <-. auto.
      * intro H. cbv zeta in H. injection H as <- <-. exists b. split; auto. split; auto.
        split; auto. cbn [p_page p_ptr p_size p_grd p_flower blocks memo piece_new]. split; auto. split; auto.
        rewrite Hmax. reflexivity.
Qed.

Lemma pieces_rel_spec : forall m who ptr l,
  match pieces_rel ps ex m l who ptr with
  | None => forall p, In p l -> p_ptr p <> ptr
  | Some (l', s, f) => exists l1 p l2, l = l1 ++ p :: l2 /\ p_ptr p = ptr /\ s = p_size p /\
      l' = l1 ++ fst (piece_free ps ex m p who) :: l2 /\ f = snd (piece_free ps ex m p who)
  end.
Proof.
  induction l as [|q l IH]; cbn [pieces_rel]; [intros p []|].
  destruct (N.eqb_spec (p_ptr q) ptr) as [E|E].
  - destruct (piece_free ps ex m q who) as [q' f] eqn:F. exists [], q, l. rewrite F. simpl. auto.
  - destruct (pieces_rel ps ex m l who ptr) as [[[l' s] f]|].
    + destruct IH as (l1 & p & l2 & A & B & C & D & F). exists (q :: l1), p, l2. subst. simpl. auto.
    + intros p [<-|H]; auto.
Qed.

Lemma blocks_rel_spec : forall m who ptr bs,
  match blocks_rel ps ex m bs who ptr with
  | None => forall b p, In b bs -> In p (b_pieces b) -> p_ptr p <> ptr
  | Some (bs', f) => exists c b l1 p l2, nth_error bs c = Some b /\ b_pieces b = l1 ++ p :: l2 /\ p_ptr p = ptr /\
      bs' = upd bs c (mkblock (b_attrs b) (b_footprint b) (w64 (b_allocated b + (2 ^ 64 - p_size p)))
                        (l1 ++ fst (piece_free ps ex m p who) :: l2)) /\
      f = snd (piece_free ps ex m p who)
  end.
Proof.
  induction bs as [|b bs IH]; cbn [blocks_rel]; [intros b p []|].
  pose proof (pieces_rel_spec m who ptr (b_pieces b)) as P.
  destruct (pieces_rel ps ex m (b_pieces b) who ptr) as [[[l s] f]|].
  - destruct P as (l1 & p & l2 & A & B & C & D & F). exists 0%nat, b, l1, p, l2. subst. simpl. auto.
  - destruct (blocks_rel ps ex m bs who ptr) as [[bs' f]|].
    + destruct IH as (c & b0 & l1 & p & l2 & A & B & C & D & F). exists (S c), b0, l1, p, l2. subst. simpl. auto.
    + intros b0 p [<-|H] Hp; eauto.
Qed.

Lemma piece_free_core : forall m p who, core (fst (piece_free ps ex m p who)) =
  (p_page p, p_ptr p, p_size p, p_grd p, p_who p, p_bt p, p_freed p + 1).
Proof.
  intros. unfold piece_free. cbv zeta. destruct (negb (p_freed p =? 0)); auto.
  destruct (asymmetric ex (p_who p) who (p_bt p)); auto.
  destruct (check_snowfield _ _ _ _ _ _) as [[a s]|]; auto.
Qed.

Lemma access_core : forall p a w bt, core (access p a w bt) = core p.
Proof.
  assert (V : forall p a bt, core (violate p a bt) = core p).
  { intros. unfold violate. destruct (p_vtimes p =? 0); auto. }
  intros. unfold access. destruct (denied p a w).
  - destruct (denied (violate p a bt) a w); rewrite ?V; auto.
  - destruct (denied p a w); rewrite ?V; auto.
Qed.

(** same blocks up to violation bookkeeping *)
Definition same (b b' : block) : Prop :=
  b_attrs b = b_attrs b' /\ b_footprint b = b_footprint b' /\ b_allocated b = b_allocated b' /\
  map core (b_pieces b) = map core (b_pieces b').
Lemma same_refl : forall b, same b b.
Proof. intro. repeat split. Qed.
Lemma Forall2_same_refl : forall bs, Forall2 same bs bs.
Proof. induction bs; constructor; auto. apply same_refl. Qed.

Lemma pieces_host_core : forall a f l l', (forall p, core (f p) = core p) ->
  pieces_host ps l a f = Some l' -> map core l = map core l'.
Proof.
  induction l as [|p l IH]; cbn [pieces_host]; intros l' Hf H; [discriminate|].
  destruct (in_page_range ps p a).
  - injection H as <-. simpl. rewrite Hf. auto.
  - destruct (pieces_host ps l a f) as [r|] eqn:E; [|discriminate]. injection H as <-. simpl. f_equal. auto.
Qed.
Lemma blocks_host_same : forall a f bs, (forall p, core (f p) = core p) -> Forall2 same bs (blocks_host ps bs a f).
Proof.
  induction bs as [|b bs IH]; cbn [blocks_host]; intro Hf; [constructor|].
  destruct (pieces_host ps (b_pieces b) a f) as [l|] eqn:E.
  - constructor; [|apply Forall2_same_refl]. repeat split. simpl. eapply pieces_host_core; eauto.
  - constructor; [apply same_refl|auto].
Qed.

(** ** the invariant *)
Record Inv (tr : trace) (bs : list block) : Prop := mkInv {
  I_len : length bs = depth tr;
  I_geo : forall b p, In b bs -> In p (b_pieces b) -> p_page p <= p_ptr p /\ p_ptr p + p_size p <= p_grd p;
  I_nodup : NoDup (map p_ptr (flat_map b_pieces bs));
  I_hist : forall b p, In b bs -> In p (b_pieces b) ->
     released tr (p_ptr p) = negb (p_freed p =? 0) /\ latest_alloc tr (p_ptr p) = Some (p_who p, p_size p, p_bt p);
  I_own : forall i b, nth_error bs i = Some b ->
     map key (b_pieces b) = rev (owned ex (is_outermost tr i) tr i) /\ scope_attrs tr i = Some (b_attrs b) }.

Lemma same_pieces : forall bs bs' b' p', Forall2 same bs bs' -> In b' bs' -> In p' (b_pieces b') ->
  exists b p, In b bs /\ In p (b_pieces b) /\ core p = core p'.
Proof.
  induction 1 as [|b b1 bs bs' S H IH]; simpl; intros Hb Hp; [destruct Hb|].
  destruct Hb as [<-|Hb].
  - destruct S as (_ & _ & _ & E). apply (in_map core) in Hp. rewrite <- E in Hp. apply in_map_iff in Hp.
    destruct Hp as (p & A & B). exists b, p. auto.
  - destruct (IH Hb Hp) as (c & p & A & B & C). exists c, p. auto.
Qed.
Lemma core_map : forall X (f : piece -> X) (g : _ -> X), (forall p, f p = g (core p)) ->
  forall l l', map core l = map core l' -> map f l = map f l'.
Proof.
  intros X f g Hg l l' H. rewrite (map_ext _ _ Hg l), (map_ext _ _ Hg l').
  rewrite <- (map_map core g), <- (map_map core g l'). congruence.
Qed.
Lemma core_ptr : forall l l', map core l = map core l' -> map p_ptr l = map p_ptr l'.
Proof. apply (core_map _ p_ptr (fun c => match c with (_, ptr, _, _, _, _, _) => ptr end)). auto. Qed.
Lemma core_key : forall l l', map core l = map core l' -> map key l = map key l'.
Proof. apply (core_map _ key (fun c => match c with (_, ptr, s, _, _, bt, _) => (ptr, s, bt) end)). auto. Qed.

Lemma same_nth : forall bs bs' i b', Forall2 same bs bs' -> nth_error bs' i = Some b' ->
  exists b, nth_error bs i = Some b /\ same b b'.
Proof.
  intros bs bs' i b' H. revert i. induction H as [|b b1 bs bs' S H IH]; intros [|i] E; simpl in *; try discriminate.
  - injection E as <-. eauto.
  - auto.
Qed.
Lemma same_ptrs : forall bs bs', Forall2 same bs bs' -> map p_ptr (flat_map b_pieces bs) = map p_ptr (flat_map b_pieces bs').
Proof.
  induction 1 as [|b b1 bs bs' S H IH]; simpl; auto. rewrite !map_app, IH. f_equal. apply core_ptr. apply S.
Qed.
Lemma same_length : forall bs bs', Forall2 same bs bs' -> length bs = length bs'.
Proof. induction 1; simpl; auto. Qed.

Lemma inv_same : forall tr tr' bs bs', Forall2 same bs bs' ->
  depth tr' = depth tr -> (forall q, released tr' q = released tr q) -> (forall q, latest_alloc tr' q = latest_alloc tr q) ->
  (forall o i, owned ex o tr' i = owned ex o tr i) -> (forall i, scope_attrs tr' i = scope_attrs tr i) ->
  Inv tr bs -> Inv tr' bs'.
Proof.
  intros tr tr' bs bs' S D R L O A [I1 I2 I3 I4 I5]. split.
  - rewrite D, <- (same_length _ _ S). auto.
  - intros b' p' Hb Hp. destruct (same_pieces _ _ _ _ S Hb Hp) as (b & p & X & Y & Z).
    specialize (I2 _ _ X Y). unfold core in Z. injection Z. intros. congruence.
  - rewrite <- (same_ptrs _ _ S). auto.
  - intros b' p' Hb Hp. destruct (same_pieces _ _ _ _ S Hb Hp) as (b & p & X & Y & Z).
    specialize (I4 _ _ X Y). unfold core in Z. injection Z. intros. rewrite R, L. congruence.
  - intros i b' Hb. destruct (same_nth _ _ _ _ S Hb) as (b & X & (Y1 & _ & _ & Y4)). destruct (I5 _ _ X) as (Z1 & Z2).
    unfold is_outermost in *. rewrite D, O, A, <- (core_key _ _ Y4), <- Y1. auto.
Qed.

Lemma flat_map_upd_perm : forall (bs : list block) c b b' p, nth_error bs c = Some b -> b_pieces b' = b_pieces b ++ [p] ->
  Permutation (flat_map b_pieces (upd bs c b')) (p :: flat_map b_pieces bs).
Proof.
  induction bs as [|x bs IH]; intros c b b' p; destruct c; simpl; intros H E; try discriminate.
  - injection H as ->. rewrite E. rewrite <- app_assoc. apply Permutation_sym, Permutation_middle.
  - eapply Permutation_trans; [apply Permutation_app_head, (IH _ _ _ _ H E)|]. apply Permutation_sym, Permutation_middle.
Qed.
Lemma flat_map_upd_ptrs : forall (bs : list block) c b b', nth_error bs c = Some b ->
  map p_ptr (b_pieces b') = map p_ptr (b_pieces b) ->
  map p_ptr (flat_map b_pieces (upd bs c b')) = map p_ptr (flat_map b_pieces bs).
Proof.
  induction bs as [|x bs IH]; intros c b b'; destruct c; simpl; intros H E; try discriminate.
  - injection H as ->. rewrite !map_app, E. auto.
  - rewrite !map_app. f_equal. eauto.
Qed.

Lemma in_flat : forall (bs : list block) b p, In b bs -> In p (b_pieces b) -> In p (flat_map b_pieces bs).
Proof. intros. apply in_flat_map. eauto. Qed.

Lemma NoDup_ptr_eq : forall (l : list piece) p q, NoDup (map p_ptr l) -> In p l -> In q l -> p_ptr p = p_ptr q -> p = q.
Proof.
  induction l as [|a l IH]; simpl; intros p q N Hp Hq E; [destruct Hp|]. inversion N; subst.
  destruct Hp as [->|Hp], Hq as [->|Hq]; auto.
  - exfalso. apply H1. rewrite E. apply in_map. auto.
  - exfalso. apply H1. rewrite <- E. apply in_map. auto.
Qed.

Lemma piece_geo : forall fl base size al who bt, size < 2 ^ 52 -> al < 2 ^ 32 -> base mod ps = 0 ->
  guard ps base size al + ps + al < 2 ^ 64 ->
  let p := piece_new ps fl base size al who bt in p_page p <= p_ptr p /\ p_ptr p + p_size p <= p_grd p /\ p_page p = base /\
    p_grd p = guard ps base size al.
Proof.
  intros fl base size al who bt Hs Ha Hb Hg p. unfold p. cbn [p_page p_ptr p_size p_grd piece_new].
  destruct (placement ps base size al ps_pow2 Hb Hs Ha) as (A & _ & B1 & B2 & _); [lia|]. auto.
Qed.

(** the new pointer is not tracked yet *)
Lemma fresh_ptr : forall tr st fl base size al who bt, Inv tr (blocks st) ->
  size < 2 ^ 52 -> al < 2 ^ 32 -> fresh_mapping ps st base size al ->
  forall q, In q (flat_map b_pieces (blocks st)) -> p_ptr q <> p_ptr (piece_new ps fl base size al who bt).
Proof.
  intros tr st fl base size al who bt I Hs Ha (F0 & F1 & F2 & F3) q Hq.
  apply in_flat_map in Hq. destruct Hq as (b & Hb & Hq).
  destruct (I_geo _ _ I _ _ Hb Hq) as [G1 G2].
  destruct (piece_geo fl base size al who bt Hs Ha F1 F2) as (P1 & P2 & P3 & P4).
  specialize (F3 _ _ Hb Hq). pose proof ps_pos.
  set (x := piece_new ps fl base size al who bt) in *. clearbody x. lia.
Qed.

Lemma target_In : forall st bt b, target ex st bt = Some b -> In b (blocks st).
Proof.
  intros st bt b. unfold target. destruct (ex bt).
  - intro H. apply in_rev. destruct (rev (blocks st)); simpl in *; [discriminate|]. injection H as ->. auto.
  - intro H. destruct (blocks st); simpl in *; [discriminate|]. injection H as ->. auto.
Qed.

Lemma inv_step : forall tr st e st' o, Inv tr (blocks st) -> enabled ps ex st e -> step ps ex st e = Some (st', o) ->
  Inv ((e, o) :: tr) (blocks st').
Proof.
  intros tr st e st' o I En. destruct e as [a| |who size al fill bt base|who ptr|a bt|a v bt]; cbn [step].
  - (* Push *)
    intro H. injection H as <- <-. destruct I as [I1 I2 I3 I4 I5]. split; cbn [blocks stack_push].
    + simpl. auto.
    + intros b p [<-|Hb]; [intros []|eauto].
    + simpl. auto.
    + intros b p [<-|Hb]; [intros []|]. cbn [released latest_alloc]. eauto.
    + intros [|i] b Hb; cbn [nth_error] in Hb.
      * injection Hb as <-. simpl. auto.
      * destruct (I5 _ _ Hb) as [A B]. cbn [owned scope_attrs]. unfold is_outermost in *. cbn [depth]. auto.
  - (* Pop *)
    unfold stack_pop. destruct (blocks st) as [|b0 bs] eqn:E; [discriminate|].
    intro H. injection H as <- <-. destruct I as [I1 I2 I3 I4 I5]. cbn [length] in I1. split; cbn [blocks].
    + cbn [depth]. rewrite <- I1. auto.
    + intros b p Hb. apply I2. right. auto.
    + simpl in I3. rewrite map_app in I3. clear -I3. induction (map p_ptr (b_pieces b0)) as [|x l IH]; auto.
      simpl in I3. inversion I3. auto.
    + intros b p Hb. cbn [released latest_alloc]. apply I4. right. auto.
    + intros i b Hb. destruct (I5 (S i) b Hb) as [A B]. cbn [owned scope_attrs]. split; auto.
      unfold is_outermost in *. cbn [depth]. rewrite <- I1 in *. cbn [pred]. auto.
  - (* Alloc *)
    destruct (stack_new ps ex st base who size al fill bt) as [st1 r] eqn:E.
    intro H. injection H as <- <-. pose proof (stack_new_spec _ _ _ _ _ _ _ _ _ E) as S.
    destruct r as [p|].
    + destruct S as (b & T & Nb & Lim & Hp & Hbs & _). cbv zeta in Hp.
      destruct En as [Hs Hfr]. specialize (Hfr b T). cbv zeta in Hfr. destruct Hfr as [Hal Hf].
      set (al' := if al =? 0 then a_align (b_attrs b) else al) in *.
      assert (NF := fresh_ptr tr st ((flower st + 1) mod 256) base size al' who bt I Hs Hal Hf). rewrite <- Hp in NF.
      destruct Hf as (F0 & F1 & F2 & F3).
      destruct (piece_geo ((flower st + 1) mod 256) base size al' who bt Hs Hal F1 F2) as (P1 & P2 & P3 & P4).
      rewrite <- Hp in P1, P2, P3, P4.
      assert (Hkey : key p = (p_ptr p, size, bt)) by (rewrite Hp; reflexivity).
      assert (Hfreed : p_freed p = 0) by (rewrite Hp; reflexivity).
      assert (Hwho : p_who p = who /\ p_size p = size /\ p_bt p = bt) by (rewrite Hp; auto).
      clearbody al'. clear Hp. destruct I as [I1 I2 I3 I4 I5].
      set (nb := mkblock (b_attrs b) _ _ (b_pieces b ++ [p])) in Hbs.
      assert (Hpieces : forall b1 q, In b1 (blocks st1) -> In q (b_pieces b1) -> q = p \/ In q (flat_map b_pieces (blocks st))).
      { intros b1 q Hb1 Hq. rewrite Hbs in Hb1. apply in_upd in Hb1. destruct Hb1 as [->|Hb1].
        - cbn [b_pieces nb] in Hq. apply in_app_or in Hq. destruct Hq as [Hq|[<-|[]]]; auto. right.
          eapply in_flat; eauto. eapply nth_error_In; eauto.
        - right. eapply in_flat; eauto. }
      assert (Hdepth : length (blocks st1) = length (blocks st)) by (rewrite Hbs; apply upd_length).
      cbn [option_map]. split.
      * cbn [depth]. congruence.
      * intros b1 q Hb1 Hq. destruct (Hpieces _ _ Hb1 Hq) as [->|Hq'].
        -- auto.
        -- apply in_flat_map in Hq'. destruct Hq' as (b2 & X & Y). eauto.
      * rewrite Hbs. eapply Permutation_NoDup.
        -- apply Permutation_sym. apply Permutation_map. apply (flat_map_upd_perm _ _ b nb p Nb). reflexivity.
        -- simpl. constructor; auto. intro Hin. apply in_map_iff in Hin. destruct Hin as (q & X & Y). apply (NF q Y X).
      * intros b1 q Hb1 Hq. cbn [released latest_alloc]. destruct (Hpieces _ _ Hb1 Hq) as [->|Hq'].
        -- rewrite N.eqb_refl, Hfreed. destruct Hwho as (-> & -> & ->). auto.
        -- pose proof (NF _ Hq') as Hne. apply N.eqb_neq in Hne. rewrite N.eqb_sym in Hne. rewrite Hne.
           apply in_flat_map in Hq'. destruct Hq' as (b2 & X & Y). eauto.
      * intros i b1 Hb1. unfold is_outermost. cbn [owned scope_attrs depth]. fold (is_outermost tr i).
        assert (Hc : (if ex bt then is_outermost tr i else Nat.eqb i 0) = Nat.eqb i (index st bt)).
        { unfold index, is_outermost. destruct (ex bt); auto. rewrite I1.
          assert (depth tr <> 0%nat) by (rewrite <- I1; apply nth_error_Some in Nb || (intro Z; rewrite Z in *; apply nth_error_In in Nb; destruct (blocks st); [destruct Nb|discriminate])).
          destruct (Nat.eqb_spec (S i) (depth tr)), (Nat.eqb_spec i (depth tr - 1)); auto; lia. }
        rewrite Hc. destruct (Nat.eqb_spec i (index st bt)) as [->|Hi].
        -- rewrite Hbs in Hb1. rewrite (nth_upd_same _ _ _ _ _ Nb) in Hb1. injection Hb1 as <-.
           destruct (I5 _ _ Nb) as [A B]. split; [|auto].
           cbn [b_pieces nb]. rewrite map_app, A. cbn [map rev]. rewrite Hkey. reflexivity.
        -- rewrite Hbs, nth_upd_other in Hb1 by auto. destruct (I5 _ _ Hb1) as [A B]. auto.
    + destruct S as [-> _]. cbn [option_map].
      apply (inv_same tr _ (blocks st)); auto. apply Forall2_same_refl.
  - (* Rel *)
    unfold stack_rel. pose proof (blocks_rel_spec (memo st) who ptr (blocks st)) as S.
    destruct (blocks_rel ps ex (memo st) (blocks st) who ptr) as [[bs f]|].
    + intro H. injection H as <- <-. cbn [blocks].
      destruct S as (c & b & l1 & p & l2 & Nb & Hl & Hptr & Hbs & Hf).
      pose proof (piece_free_core (memo st) p who) as HC. set (p' := fst (piece_free ps ex (memo st) p who)) in *.
      unfold core in HC. injection HC as C1 C2 C3 C4 C5 C6 C7.
      destruct I as [I1 I2 I3 I4 I5]. set (nb := mkblock _ _ _ (l1 ++ p' :: l2)) in Hbs.
      assert (Hin : In p (b_pieces b)) by (rewrite Hl; apply in_elt).
      assert (Hinb : In b (blocks st)) by (eapply nth_error_In; eauto).
      assert (Hp0 : In p (flat_map b_pieces (blocks st))) by (eapply in_flat; eauto).
      assert (Hptrs : map p_ptr (b_pieces nb) = map p_ptr (b_pieces b)).
      { rewrite Hl. cbn [b_pieces nb]. rewrite !map_app. simpl. congruence. }
      assert (Hpieces : forall b1 q, In b1 bs -> In q (b_pieces b1) -> q = p' \/ (In q (flat_map b_pieces (blocks st)) /\ p_ptr q <> ptr)).
      { intros b1 q Hb1 Hq. 
        assert (NDs : NoDup (map p_ptr (flat_map b_pieces bs))) by (rewrite Hbs, (flat_map_upd_ptrs _ _ _ _ Nb Hptrs); auto).
        destruct (N.eq_dec (p_ptr q) ptr) as [E|E].
        - left. apply (NoDup_ptr_eq (flat_map b_pieces bs)); auto.
          + eapply in_flat; eauto.
          + apply (in_flat _ nb); [rewrite Hbs; apply nth_error_In with (n := c); eapply nth_upd_same; eauto|].
            cbn [b_pieces nb]. apply in_elt.
          + congruence.
        - right. split; auto. rewrite Hbs in Hb1. apply in_upd in Hb1. destruct Hb1 as [->|Hb1].
          + cbn [b_pieces nb] in Hq. apply in_app_or in Hq. destruct Hq as [Hq|[<-|Hq]].
            * apply (in_flat _ b); auto. rewrite Hl. apply in_or_app. auto.
            * congruence.
            * apply (in_flat _ b); auto. rewrite Hl. apply in_or_app. right. right. auto.
          + eapply in_flat; eauto. }
      split.
      * cbn [depth]. rewrite Hbs, upd_length. auto.
      * intros b1 q Hb1 Hq. destruct (Hpieces _ _ Hb1 Hq) as [->|[Hq' _]].
        -- destruct (I2 _ _ Hinb Hin). rewrite C1, C2, C3, C4. auto.
        -- apply in_flat_map in Hq'. destruct Hq' as (b2 & X & Y). eauto.
      * rewrite Hbs, (flat_map_upd_ptrs _ _ _ _ Nb Hptrs). auto.
      * intros b1 q Hb1 Hq. cbn [released latest_alloc]. destruct (Hpieces _ _ Hb1 Hq) as [->|[Hq' Hne]].
        -- rewrite C2, Hptr, N.eqb_refl, C7, C5, C3, C6. split.
           ++ symmetry. apply negb_true_iff. apply N.eqb_neq. lia.
           ++ rewrite <- Hptr. apply (I4 _ _ Hinb Hin).
        -- apply N.eqb_neq in Hne. rewrite N.eqb_sym in Hne. rewrite Hne.
           apply in_flat_map in Hq'. destruct Hq' as (b2 & X & Y). eauto.
      * intros i b1 Hb1. unfold is_outermost. cbn [owned scope_attrs depth]. fold (is_outermost tr i).
        destruct (Nat.eq_dec i c) as [->|Hi].
        -- rewrite Hbs, (nth_upd_same _ _ _ _ _ Nb) in Hb1. injection Hb1 as <-.
           destruct (I5 _ _ Nb) as [A B]. split; [|auto]. rewrite <- A, Hl. cbn [b_pieces nb]. rewrite !map_app. simpl.
           unfold key at 2. rewrite C2, C3, C6. reflexivity.
        -- rewrite Hbs, nth_upd_other in Hb1 by auto. auto.
    + intro H. injection H as <- <-. destruct I as [I1 I2 I3 I4 I5]. split; auto.
      * intros b p Hb Hp. cbn [released latest_alloc]. specialize (S _ _ Hb Hp).
        apply N.eqb_neq in S. rewrite N.eqb_sym in S. rewrite S. apply (I4 _ _ Hb Hp).
  - (* Load *)
    intro H. injection H as <- <-. cbn [blocks do_load].
    apply (inv_same tr _ (blocks st)); auto. apply blocks_host_same. intro. apply access_core.
  - (* Store *)
    intro H. injection H as <- <-. cbn [blocks do_store].
    apply (inv_same tr _ (blocks st)); auto. apply blocks_host_same. intro. apply access_core.
Qed.

Lemma history_inv : forall tr st, history ps ex tr st -> Inv tr (blocks st).
Proof.
  induction 1.
  - split; simpl; auto; try easy.
    + constructor.
    + intros [|i] b H; discriminate.
  - eapply inv_step; eauto.
  - auto.
Qed.
End P.
