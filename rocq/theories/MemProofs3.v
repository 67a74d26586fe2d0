From Coq Require Import List NArith ZArith Bool Lia Arith Permutation.
From Verif Require Import Base PieceModel PieceSpec PieceProofs MemModel MemSpec MemProofs MemProofs2.
Import ListNotations.
Local Open Scope N_scope.

Section P.
Variable ps : N.
Variable ex : N -> bool.
Hypothesis ps_pow2 : pow2 ps.

(** ** mappings of different pieces never overlap *)
Definition apart (p q : piece) : Prop := p_grd p + ps <= p_page q \/ p_grd q + ps <= p_page p.
Definition Apart (bs : list block) : Prop := forall p q,
  In p (flat_map b_pieces bs) -> In q (flat_map b_pieces bs) -> p_ptr p <> p_ptr q -> apart p q.

Lemma Apart_shadow : forall bs bs', Apart bs ->
  (forall q, In q (flat_map b_pieces bs') -> exists p, In p (flat_map b_pieces bs) /\ p_ptr p = p_ptr q /\ p_page p = p_page q /\ p_grd p = p_grd q) ->
  Apart bs'.
Proof.
  intros bs bs' A S p q Hp Hq Hne. destruct (S _ Hp) as (p0 & P1 & P2 & P3 & P4). destruct (S _ Hq) as (q0 & Q1 & Q2 & Q3 & Q4).
  unfold apart. rewrite <- P3, <- P4, <- Q3, <- Q4. apply (A p0 q0); auto. congruence.
Qed.

Lemma same_shadow : forall bs bs', Forall2 same bs bs' -> forall q, In q (flat_map b_pieces bs') ->
  exists p, In p (flat_map b_pieces bs) /\ p_ptr p = p_ptr q /\ p_page p = p_page q /\ p_grd p = p_grd q.
Proof.
  intros bs bs' S q Hq. apply in_flat_map in Hq. destruct Hq as (b' & Hb & Hp).
  destruct (same_pieces _ _ _ _ S Hb Hp) as (b & p & X & Y & Z). exists p. split; [eapply in_flat; eauto|].
  unfold core in Z. injection Z. intros. auto.
Qed.

Lemma in_upd_flat : forall (bs : list block) c b nb q, nth_error bs c = Some b ->
  In q (flat_map b_pieces (upd bs c nb)) -> In q (flat_map b_pieces bs) \/ In q (b_pieces nb).
Proof.
  induction bs as [|x bs IH]; intros [|c] b nb q N H; try discriminate; simpl in *.
  - apply in_app_or in H. destruct H; auto. left. apply in_or_app. auto.
  - apply in_app_or in H. destruct H as [H|H]; [left; apply in_or_app; auto|].
    destruct (IH _ _ _ _ N H); auto. left. apply in_or_app. auto.
Qed.

Lemma apart_step : forall st e st' o, Apart (blocks st) -> enabled ps ex st e ->
  step ps ex st e = Some (st', o) -> Apart (blocks st').
Proof.
  intros st e st' o A En HS. destruct e as [a| |who size al fill bt base|who ptr|a bt|a v bt]; cbn [step] in HS.
  - injection HS as <- <-. exact A.
  - unfold stack_pop in HS. destruct (blocks st) as [|b0 bs]; [discriminate|]. injection HS as <- <-.
    intros p q Hp Hq. apply A; simpl; apply in_or_app; auto.
  - destruct (stack_new ps ex st base who size al fill bt) as [st1 r] eqn:E. injection HS as <- <-.
    pose proof (stack_new_spec ps ex _ _ _ _ _ _ _ _ _ E) as S. destruct r as [p|].
    + destruct S as (b & T & Nb & Lim & Hp & Hbs & _). cbv zeta in Hp.
      destruct En as [Hs Hfr]. specialize (Hfr b T). cbv zeta in Hfr. destruct Hfr as [Hal (F0 & F1 & F2 & F3)].
      assert (Q : forall q, In q (flat_map b_pieces (blocks st1)) -> q = p \/ In q (flat_map b_pieces (blocks st))).
      { intros q Hq. rewrite Hbs in Hq. destruct (in_upd_flat _ _ _ _ _ Nb Hq) as [|H]; auto. cbn [b_pieces] in H.
        apply in_app_or in H. destruct H as [H|[->|[]]]; auto. right. eapply in_flat; eauto. eapply nth_error_In; eauto. }
      assert (G : forall q, In q (flat_map b_pieces (blocks st)) -> apart p q).
      { intros q Hq. apply in_flat_map in Hq. destruct Hq as (b0 & X & Y). unfold apart. rewrite Hp. cbn [p_grd p_page piece_new].
        apply (F3 _ _ X Y). }
      intros x y Hx Hy Hne. destruct (Q _ Hx) as [->|Hx']; destruct (Q _ Hy) as [->|Hy'].
      * congruence.
      * auto.
      * destruct (G _ Hx'); [right|left]; auto.
      * auto.
    + destruct S as [-> _]. auto.
  - unfold stack_rel in HS. pose proof (blocks_rel_spec ps ex (memo st) who ptr (blocks st)) as S.
    destruct (blocks_rel ps ex (memo st) (blocks st) who ptr) as [[bs f]|]; injection HS as <- <-; auto. cbn [blocks].
    destruct S as (c & b & l1 & p & l2 & Nb & Hl & Hptr & Hbs & Hf). apply (Apart_shadow (blocks st)); auto.
    intros q Hq. rewrite Hbs in Hq. destruct (in_upd_flat _ _ _ _ _ Nb Hq) as [H|H]; [exists q; auto|]. cbn [b_pieces] in H.
    assert (Z : forall x, In x (b_pieces b) -> In x (flat_map b_pieces (blocks st))).
    { intros x Hx. eapply in_flat; eauto. eapply nth_error_In; eauto. }
    apply in_app_or in H. destruct H as [H|[H|H]].
    + exists q. split; auto. apply Z. rewrite Hl. apply in_or_app. auto.
    + exists p. split; [apply Z; rewrite Hl; apply in_elt|]. rewrite <- H.
      pose proof (piece_free_core ps ex (memo st) p who) as HC. unfold core in HC. injection HC. auto.
    + exists q. split; auto. apply Z. rewrite Hl. apply in_or_app. right. right. auto.
  - injection HS as <- <-. apply (Apart_shadow (blocks st)); auto. apply same_shadow. apply blocks_host_same. intro. apply access_core.
  - injection HS as <- <-. apply (Apart_shadow (blocks st)); auto. apply same_shadow. apply blocks_host_same. intro. apply access_core.
Qed.

Lemma history_apart : forall tr st, history ps ex tr st -> Apart (blocks st).
Proof.
  induction 1; auto.
  - intros p q [].
  - eapply apart_step; eauto.
Qed.

(** ** an access reaches the piece whose pages contain the address *)
Lemma pieces_host_hit : forall l a f p, NoDup (map p_ptr l) -> In p l -> in_page_range ps p a = true ->
  (forall q, In q l -> in_page_range ps q a = true -> p_ptr q = p_ptr p) ->
  exists l', pieces_host ps l a f = Some l' /\ In (f p) l'.
Proof.
  induction l as [|x l IH]; intros a f p ND Hp Hr U; [destruct Hp|]. cbn [pieces_host]. inversion ND; subst.
  destruct (in_page_range ps x a) eqn:E.
  - assert (x = p).
    { destruct Hp as [|Hp]; auto. exfalso. apply H1. rewrite (U x); auto; [|left; auto]. apply in_map. auto. }
    subst. eexists. split; eauto. left. auto.
  - destruct Hp as [->|Hp]; [congruence|]. destruct (IH a f p H2 Hp Hr) as (l' & A & B); [intros; apply U; auto; right; auto|].
    rewrite A. eexists. split; eauto. right. auto.
Qed.
Lemma pieces_host_miss : forall l a f, (forall q, In q l -> in_page_range ps q a = false) -> pieces_host ps l a f = None.
Proof.
  induction l as [|x l IH]; intros a f H; auto. cbn [pieces_host]. rewrite (H x) by (left; auto). rewrite IH; auto. intros. apply H. right. auto.
Qed.
Lemma NoDup_app_inv : forall (A : Type) (a b : list A), NoDup (a ++ b) -> NoDup a /\ NoDup b /\ forall x, In x a -> In x b -> False.
Proof.
  induction a as [|x a IH]; simpl; intros b H.
  - split; [constructor|]. split; auto.
  - inversion H; subst. destruct (IH _ H3) as (P & Q & R). split; [|split]; auto.
    + constructor; auto. intro Z. apply H2. apply in_or_app. auto.
    + intros y [->|Hy] Hb; [apply H2; apply in_or_app; auto|eauto].
Qed.
Lemma blocks_host_hit : forall bs i b a f p, NoDup (map p_ptr (flat_map b_pieces bs)) -> nth_error bs i = Some b -> In p (b_pieces b) ->
  in_page_range ps p a = true ->
  (forall q, In q (flat_map b_pieces bs) -> in_page_range ps q a = true -> p_ptr q = p_ptr p) ->
  exists b', nth_error (blocks_host ps bs a f) i = Some b' /\ In (f p) (b_pieces b').
Proof.
  induction bs as [|x bs IH]; intros [|i] b a f p ND Hb Hp Hr U; try discriminate; cbn [nth_error] in Hb;
    cbn [flat_map] in ND; rewrite map_app in ND; destruct (NoDup_app_inv _ _ _ ND) as (N1 & N2 & N3); cbn [blocks_host].
  - injection Hb as ->. destruct (pieces_host_hit (b_pieces b) a f p N1 Hp Hr) as (l' & A & B).
    { intros q Hq. apply U. simpl. apply in_or_app. auto. }
    rewrite A. eexists. split; [reflexivity|]. auto.
  - rewrite pieces_host_miss.
    + cbn [nth_error]. apply (IH i b); auto. intros q Hq. apply U. simpl. apply in_or_app. auto.
    + intros q Hq. destruct (in_page_range ps q a) eqn:E; auto. exfalso. apply (N3 (p_ptr q)).
      * apply in_map. auto.
      * rewrite (U q); auto; [|simpl; apply in_or_app; auto]. apply in_map. eapply in_flat; eauto. eapply nth_error_In; eauto.
Qed.

Lemma access_reaches : forall tr st i b p a (w : bool) v bt, history ps ex tr st -> nth_error (blocks st) i = Some b -> In p (b_pieces b) ->
  within a (p_page p) (p_grd p + ps) ->
  exists b', nth_error (blocks (if w then do_store ps st a v bt else do_load ps st a bt)) i = Some b' /\
    In (access p a w bt) (b_pieces b').
Proof.
  intros tr st i b p a w v bt H Hb Hp [W1 W2].
  pose proof (history_inv ps ex ps_pow2 _ _ H) as I. pose proof (history_apart _ _ H) as A.
  assert (R : in_page_range ps p a = true).
  { unfold in_page_range. apply andb_true_iff. rewrite N.leb_le, N.ltb_lt. auto. }
  assert (Hin : In p (flat_map b_pieces (blocks st))) by (eapply in_flat; eauto; eapply nth_error_In; eauto).
  assert (U : forall q, In q (flat_map b_pieces (blocks st)) -> in_page_range ps q a = true -> p_ptr q = p_ptr p).
  { intros q Hq Hr. destruct (N.eq_dec (p_ptr q) (p_ptr p)) as [|Hne]; auto. exfalso.
    unfold in_page_range in Hr. apply andb_true_iff in Hr. rewrite N.leb_le, N.ltb_lt in Hr.
    destruct (A q p Hq Hin Hne); lia. }
  destruct w; cbn [do_store do_load blocks].
  - apply (blocks_host_hit (blocks st) i b a (fun p => access p a true bt) p); auto. apply (I_nodup _ _ _ I).
  - apply (blocks_host_hit (blocks st) i b a (fun p => access p a false bt) p); auto. apply (I_nodup _ _ _ I).
Qed.

(** ** a recorded violation stays until its scope closes *)
Definition recorded (st : state) (i : nat) (ptr a : N) (after : bool) : Prop := exists b p,
  nth_error (blocks st) i = Some b /\ In p (b_pieces b) /\ p_ptr p = ptr /\ p_vtimes p <> 0 /\ p_vptr p = a /\ p_vafter p = after.

Lemma pieces_host_keep : forall (Q : piece -> Prop) l a f l', (forall p, Q p -> Q (f p)) -> pieces_host ps l a f = Some l' ->
  (exists p, In p l /\ Q p) -> exists p, In p l' /\ Q p.
Proof.
  induction l as [|x l IH]; intros a f l' F E (p & Hp & HQ); [discriminate|]. cbn [pieces_host] in E.
  destruct (in_page_range ps x a).
  - injection E as <-. destruct Hp as [->|Hp]; [exists (f p); split; auto; left; auto|exists p; split; auto; right; auto].
  - destruct (pieces_host ps l a f) as [r|] eqn:E'; [|discriminate]. injection E as <-.
    destruct Hp as [->|Hp]; [exists p; split; auto; left; auto|].
    destruct (IH _ _ _ F E') as (q & X & Y); [eauto|]. exists q. split; auto. right. auto.
Qed.
Lemma blocks_host_keep : forall (Q : piece -> Prop) bs i b a f, (forall p, Q p -> Q (f p)) -> nth_error bs i = Some b ->
  (exists p, In p (b_pieces b) /\ Q p) ->
  exists b', nth_error (blocks_host ps bs a f) i = Some b' /\ exists p, In p (b_pieces b') /\ Q p.
Proof.
  induction bs as [|x bs IH]; intros [|i] b a f F Hb E; try discriminate; cbn [nth_error] in Hb; cbn [blocks_host].
  - injection Hb as ->. destruct (pieces_host ps (b_pieces b) a f) eqn:P.
    + eexists. split; [reflexivity|]. cbn [b_pieces]. eapply pieces_host_keep; eauto.
    + exists b. split; auto.
  - destruct (pieces_host ps (b_pieces x) a f) eqn:P; cbn [nth_error]; eauto.
Qed.

(** any property of a piece that releases and accesses preserve survives every event *)
Lemma keep_step : forall (Q : piece -> Prop) st e st' o i, step ps ex st e = Some (st', o) ->
  (forall m p who, e = Rel who (p_ptr p) -> Q p -> Q (fst (piece_free ps ex m p who))) ->
  (forall a bt p, e = Load a bt -> Q p -> Q (access p a false bt)) ->
  (forall a v bt p, e = Store a v bt -> Q p -> Q (access p a true bt)) ->
  forall i', (match e with Push _ => i' = S i | Pop => i = S i' | _ => i' = i end) ->
  (exists b p, nth_error (blocks st) i = Some b /\ In p (b_pieces b) /\ Q p) ->
  exists b p, nth_error (blocks st') i' = Some b /\ In p (b_pieces b) /\ Q p.
Proof.
  intros Q st e st' o i HS QF QL QS i' Hi (b & p & Hb & Hp & HQ).
  destruct e as [a| |who size al fill bt base|who ptr|a bt|a v bt]; cbn [step] in HS.
  - subst i'. injection HS as <- <-. exists b, p. auto.
  - subst i. unfold stack_pop in HS. destruct (blocks st) as [|b0 bs]; [discriminate|]. injection HS as <- <-. exists b, p. auto.
  - subst i'. destruct (stack_new ps ex st base who size al fill bt) as [st1 r] eqn:E. injection HS as <- <-.
    pose proof (stack_new_spec ps ex _ _ _ _ _ _ _ _ _ E) as S. destruct r as [q|].
    + destruct S as (b0 & T & Nb & Lim & _ & Hbs & _). destruct (Nat.eq_dec i (index ex st bt)) as [->|Hne].
      * assert (b0 = b) by congruence. subst b0. eexists. exists p. rewrite Hbs, (nth_upd_same _ _ _ _ _ Nb).
        split; [reflexivity|]. split; auto. cbn [b_pieces]. apply in_or_app. auto.
      * exists b, p. rewrite Hbs, nth_upd_other by auto. auto.
    + destruct S as [-> _]. exists b, p. auto.
  - subst i'. unfold stack_rel in HS. pose proof (blocks_rel_spec ps ex (memo st) who ptr (blocks st)) as S.
    destruct (blocks_rel ps ex (memo st) (blocks st) who ptr) as [[bs f]|]; injection HS as <- <-; [|exists b, p; auto]. cbn [blocks].
    destruct S as (c & b0 & l1 & p0 & l2 & Nb & Hl & Hptr & Hbs & Hf).
    destruct (Nat.eq_dec i c) as [->|Hne].
    + assert (b0 = b) by congruence. subst b0. rewrite Hbs, (nth_upd_same _ _ _ _ _ Nb). rewrite Hl in Hp. apply in_app_or in Hp.
      destruct Hp as [Hp|[->|Hp]].
      * eexists. exists p. split; [reflexivity|]. split; auto. cbn [b_pieces]. apply in_or_app. auto.
      * eexists. exists (fst (piece_free ps ex (memo st) p who)). split; [reflexivity|]. split; [cbn [b_pieces]; apply in_elt|]. apply QF; auto. congruence.
      * eexists. exists p. split; [reflexivity|]. split; auto. cbn [b_pieces]. apply in_or_app. right. right. auto.
    + exists b, p. rewrite Hbs, nth_upd_other by auto. auto.
  - subst i'. injection HS as <- <-. cbn [blocks do_load].
    destruct (blocks_host_keep Q (blocks st) i b a (fun p => access p a false bt)) as (b' & X & q & Y & Z); eauto.
  - subst i'. injection HS as <- <-. cbn [blocks do_store].
    destruct (blocks_host_keep Q (blocks st) i b a (fun p => access p a true bt)) as (b' & X & q & Y & Z); eauto.
Qed.

Lemma free_violation : forall m p who, let q := fst (piece_free ps ex m p who) in
  p_vtimes q = p_vtimes p /\ p_vptr q = p_vptr p /\ p_vafter q = p_vafter p.
Proof.
  intros m p who. unfold piece_free. destruct (negb (p_freed p =? 0)); auto. destruct (asymmetric _ _ _ _); auto.
  destruct (check_snowfield _ _ _ _ _ _) as [[x y]|]; auto.
Qed.

Lemma run_recorded : forall st i es st' i' ptr a after, run ps ex st i es st' i' -> recorded st i ptr a after -> recorded st' i' ptr a after.
Proof.
  intros st i es st' i' ptr a after R. induction R as [|st i e st1 o i1 es st2 i2 En HS Hi R IH]; auto.
  intros (b & p & A & B & C). apply IH.
  destruct (keep_step (fun p => p_ptr p = ptr /\ p_vtimes p <> 0 /\ p_vptr p = a /\ p_vafter p = after) _ _ _ _ i HS) with (i' := i1)
    as (b' & p' & X & Y & Z); auto.
  - intros m q who _ (Q1 & Q2 & Q3 & Q4). destruct (free_violation m q who) as (V1 & V2 & V3).
    pose proof (piece_free_core ps ex m q who) as HC. unfold core in HC. injection HC. intros. rewrite V1, V2, V3. split; auto. congruence.
  - intros a0 bt q _ (Q1 & Q2 & Q3 & Q4). destruct (later_access q a0 false bt Q2) as (V1 & V2 & V3 & V4 & _).
    pose proof (access_core q a0 false bt) as HC. unfold core in HC. injection HC. intros. rewrite V2, V3. split; [congruence|auto].
  - intros a0 v bt q _ (Q1 & Q2 & Q3 & Q4). destruct (later_access q a0 true bt Q2) as (V1 & V2 & V3 & V4 & _).
    pose proof (access_core q a0 true bt) as HC. unfold core in HC. injection HC. intros. rewrite V2, V3. split; [congruence|auto].
  - exists b, p. auto.
  - exists b', p'. auto.
Qed.

(** memory that was released cleanly and not touched since *)
Definition gone (st : state) (i : nat) (ptr lo hi : N) : Prop := exists b p,
  nth_error (blocks st) i = Some b /\ In p (b_pieces b) /\ p_ptr p = ptr /\ p_page p = lo /\ p_grd p + ps = hi /\
  p_flo p = lo /\ p_fhi p = hi /\ p_fr p = false /\ p_fw p = false /\ p_freed p <> 0 /\ p_vtimes p = 0.

Lemma access_outside : forall p a w bt, ~ within a (p_flo p) (p_fhi p) -> access p a w bt = p.
Proof.
  intros p a w bt H. unfold access. assert (D : denied p a w = false).
  { unfold denied. destruct (N.leb_spec (p_flo p) a); cbn; auto. destruct (N.ltb_spec a (p_fhi p)); cbn; auto. exfalso. apply H. split; auto. }
  rewrite D, D. auto.
Qed.

Lemma run_gone : forall st i es st' i' ptr lo hi, run ps ex st i es st' i' -> (forall e, In e es -> ~ touches lo hi e) ->
  gone st i ptr lo hi -> gone st' i' ptr lo hi.
Proof.
  intros st i es st' i' ptr lo hi R. induction R as [|st i e st1 o i1 es st2 i2 En HS Hi R IH]; auto.
  intros NT (b & p & A & B & C). apply IH; [intros; apply NT; right; auto|].
  destruct (keep_step (fun p => p_ptr p = ptr /\ p_page p = lo /\ p_grd p + ps = hi /\
     p_flo p = lo /\ p_fhi p = hi /\ p_fr p = false /\ p_fw p = false /\ p_freed p <> 0 /\ p_vtimes p = 0) _ _ _ _ i HS) with (i' := i1)
    as (b' & p' & X & Y & Z); auto.
  - intros m q who _ (Q1 & Q2 & Q3 & Q4 & Q5 & Q6 & Q7 & Q8 & Q9). unfold piece_free.
    apply N.eqb_neq in Q8. rewrite Q8. cbn. repeat (split; [assumption|]). split; [lia|assumption].
  - intros a bt q -> HQ. rewrite access_outside; auto. destruct HQ as (_ & _ & _ & -> & -> & _). apply (NT (Load a bt)). left. auto.
  - intros a v bt q -> HQ. rewrite access_outside; auto. destruct HQ as (_ & _ & _ & -> & -> & _). apply (NT (Store a v bt)). left. auto.
  - exists b, p. auto.
  - exists b', p'. auto.
Qed.

(** clean release makes the memory gone *)
Lemma release_gone : forall tr st who ptr st' i b p, history ps ex tr st -> step ps ex st (Rel who ptr) = Some (st', OFail None) ->
  nth_error (blocks st) i = Some b -> In p (b_pieces b) -> p_ptr p = ptr -> p_vtimes p = 0 ->
  gone st' i ptr (p_page p) (p_grd p + ps).
Proof.
  intros tr st who ptr st' i b p H HS Hb Hp E V. cbn [step] in HS. unfold stack_rel in HS.
  pose proof (history_inv ps ex ps_pow2 _ _ H) as I.
  pose proof (blocks_rel_spec ps ex (memo st) who ptr (blocks st)) as S.
  destruct (blocks_rel ps ex (memo st) (blocks st) who ptr) as [[bs f]|].
  - injection HS as <- ->. destruct S as (c & b0 & l1 & p0 & l2 & Nb & Hl & Hptr & Hbs & Hf). cbn [blocks].
    assert (Hin0 : In p0 (b_pieces b0)) by (rewrite Hl; apply in_elt).
    assert (i = c /\ p = p0).
    { pose proof (I_nodup _ _ _ I) as ND. clear -ND Hb Hp Hptr E Nb Hin0. subst ptr. revert i c Hb Nb.
      induction (blocks st) as [|x bs IH]; intros i c Hb Nb; [destruct i; discriminate|].
      cbn [flat_map] in ND. rewrite map_app in ND. destruct (NoDup_app_inv _ _ _ ND) as (N1 & N2 & N3).
      destruct i, c; cbn [nth_error] in *.
      - split; auto. assert (b0 = b) by congruence. subst b0. injection Hb as ->. clear -N1 Hp Hin0 Hptr.
        induction (b_pieces b) as [|y l IH]; [destruct Hp|]. inversion N1; subst.
        destruct Hp as [->|Hp], Hin0 as [->|Hq]; auto.
        + exfalso. apply H1. rewrite <- Hptr. apply in_map. auto.
        + exfalso. apply H1. rewrite Hptr. apply in_map. auto.
      - exfalso. injection Hb as ->. apply (N3 (p_ptr p)); [apply in_map; auto|]. rewrite <- Hptr. apply in_map. eapply in_flat; eauto. eapply nth_error_In; eauto.
      - exfalso. injection Nb as ->. apply (N3 (p_ptr p)); [rewrite <- Hptr; apply in_map; auto|]. apply in_map. eapply in_flat; eauto. eapply nth_error_In; eauto.
      - destruct (IH N2 i c Hb Nb). auto. }
    destruct H0 as [-> ->]. rewrite Hbs. eexists. exists (fst (piece_free ps ex (memo st) p0 who)). cbn [blocks]. rewrite (nth_upd_same _ _ _ _ _ Nb).
    split; [reflexivity|]. split; [cbn [b_pieces]; apply in_elt|].
    destruct (piece_free ps ex (memo st) p0 who) as [p' f'] eqn:EF. cbn [snd fst] in *. subst f'.
    unfold piece_free in EF. destruct (negb (p_freed p0 =? 0)); [discriminate|]. destruct (asymmetric _ _ _ _); [discriminate|].
    destruct (check_snowfield _ _ _ _ _ _) as [[x y]|]; [discriminate|]. injection EF as <-. cbn. repeat (split; [solve [auto|lia]|]); auto.
  - exfalso. apply (S b p); auto. eapply nth_error_In; eauto.
Qed.

Lemma run_history : forall tr st i es st' i', run ps ex st i es st' i' -> history ps ex tr st -> exists tr', history ps ex tr' st'.
Proof.
  intros tr st i es st' i' R. revert tr. induction R as [|st i e st1 o i1 es st2 i2 En HS Hi R IH]; intros tr H; eauto.
  apply (IH ((e, o) :: tr)). eapply h_step; eauto.
Qed.

(** use after free: release, anything not touching it, a touch, anything, close of the scope *)
Lemma use_after_free_reported : forall tr st i b p who st1 es1 st2 i2 e a w bt st3 es2 st4 st5 fs,
  history ps ex tr st -> nth_error (blocks st) i = Some b -> In p (b_pieces b) -> p_vtimes p = 0 ->
  step ps ex st (Rel who (p_ptr p)) = Some (st1, OFail None) ->
  run ps ex st1 i es1 st2 i2 -> (forall x, In x es1 -> ~ touches (p_page p) (p_grd p + ps) x) ->
  is_access e a w bt -> within a (p_page p) (p_grd p + ps) -> step ps ex st2 e = Some (st3, ONone) ->
  run ps ex st3 i2 es2 st4 0 -> step ps ex st4 Pop = Some (st5, OFails fs) ->
  exists w', In (FViolate (p_ptr p) a w' true) fs.
Proof.
  intros tr st i b p who st1 es1 st2 i2 e a w bt st3 es2 st4 st5 fs H Hb Hp V HR R1 NT HA HW HE R2 HP.
  pose proof (release_gone _ _ _ _ _ _ _ _ H HR Hb Hp eq_refl V) as G1.
  pose proof (run_gone _ _ _ _ _ _ _ _ R1 NT G1) as (b2 & p2 & B1 & B2 & Q1 & Q2 & Q3 & Q4 & Q5 & Q6 & Q7 & Q8 & Q9).
  assert (H1 : history ps ex ((Rel who (p_ptr p), OFail None) :: tr) st1) by (eapply h_step; eauto; exact Logic.I).
  destruct (run_history _ _ _ _ _ _ R1 H1) as (tr2 & H2).
  assert (D : denied p2 a w = true).
  { unfold denied. rewrite Q4, Q5, Q6, Q7. destruct HW as [W1 W2]. destruct (N.leb_spec (p_page p) a); [|lia].
    destruct (N.ltb_spec a (p_grd p + ps)); [|lia]. destruct w; auto. }
  destruct (first_offence p2 a w bt Q9 D) as (O1 & O2 & O3 & O4 & O5).
  assert (RC : recorded st3 i2 (p_ptr p) a true).
  { assert (HW2 : within a (p_page p2) (p_grd p2 + ps)) by (rewrite Q2, Q3; auto).
    assert (exists v, st3 = if (w : bool) then do_store ps st2 a v bt else do_load ps st2 a bt) as (v & ->).
    { destruct HA as [[-> ->]|[-> (v & ->)]]; cbn [step] in HE; injection HE as <-; [exists 0|exists v]; auto. }
    destruct (access_reaches _ _ _ _ _ a w v bt H2 B1 B2 HW2) as (b3 & C1 & C2).
    exists b3, (access p2 a w bt). split; auto. split; auto. split.
    - pose proof (access_core p2 a w bt) as HC. unfold core in HC. injection HC. intros. congruence.
    - split; auto. split; auto. rewrite O4. destruct (N.ltb_spec 0 (p_freed p2)); auto. lia. }
  pose proof (run_recorded _ _ _ _ _ _ _ _ R2 RC) as (b4 & p4 & E1 & E2 & E3 & E4 & E5 & E6).
  exists (p_vwrite p4).
  apply (violation_report ps ex st4 st5 fs b4 HP).
  - destruct (blocks st4); auto; discriminate.
  - eauto.
  - exists p4. rewrite E3, E5, E6. auto.
Qed.

(** write to the guard page behind a fresh allocation *)
Definition fresh_piece (st : state) (i : nat) (ptr lo g : N) : Prop := exists b p,
  nth_error (blocks st) i = Some b /\ In p (b_pieces b) /\ p_ptr p = ptr /\ p_page p = lo /\ p_grd p = g /\
  p_flo p = g /\ p_fhi p = g + ps /\ p_fw p = false /\ p_vtimes p = 0 /\ p_freed p = 0.

Lemma run_fresh : forall st i es st' i' ptr lo g, run ps ex st i es st' i' -> (forall x, In x es -> ~ touches g (g + ps) x /\ forall who', x <> Rel who' ptr) ->
  fresh_piece st i ptr lo g -> fresh_piece st' i' ptr lo g.
Proof.
  intros st i es st' i' ptr lo g R. induction R as [|st i e st1 o i1 es st2 i2 En HS Hi R IH]; auto.
  intros NT (b & p & A & B & C). apply IH; [intros; apply NT; right; auto|].
  destruct (NT e (or_introl eq_refl)) as [NT1 NT2].
  destruct (keep_step (fun p => p_ptr p = ptr /\ p_page p = lo /\ p_grd p = g /\
     p_flo p = g /\ p_fhi p = g + ps /\ p_fw p = false /\ p_vtimes p = 0 /\ p_freed p = 0) _ _ _ _ i HS) with (i' := i1)
    as (b' & p' & X & Y & Z); auto.
  - intros m q who E (Q1 & _). exfalso. apply (NT2 who). congruence.
  - intros a bt q -> HQ. rewrite access_outside; auto. destruct HQ as (_ & _ & _ & -> & -> & _). auto.
  - intros a v bt q -> HQ. rewrite access_outside; auto. destruct HQ as (_ & _ & _ & -> & -> & _). auto.
  - exists b, p. auto.
  - exists b', p'. auto.
Qed.

Lemma guard_write_reported : forall tr st who size al fill bt base st1 q b es1 st2 i2 a v bt2 st3 es2 st4 st5 fs,
  history ps ex tr st -> ex bt = false -> hd_error (blocks st) = Some b ->
  enabled ps ex st (Alloc who size al fill bt base) ->
  step ps ex st (Alloc who size al fill bt base) = Some (st1, OPtr (Some q)) ->
  let g := guard ps base size (if al =? 0 then a_align (b_attrs b) else al) in
  run ps ex st1 0 es1 st2 i2 -> (forall x, In x es1 -> ~ touches g (g + ps) x /\ forall who', x <> Rel who' q) ->
  within a g (g + ps) -> step ps ex st2 (Store a v bt2) = Some (st3, ONone) ->
  run ps ex st3 i2 es2 st4 0 -> step ps ex st4 Pop = Some (st5, OFails fs) ->
  exists w', In (FViolate q a w' false) fs.
Proof.
  intros tr st who size al fill bt base st1 q b es1 st2 i2 a v bt2 st3 es2 st4 st5 fs H Hex Hb En HS g R1 NT HW HE R2 HP.
  assert (H1 := h_step ps ex _ _ _ _ _ H En HS).
  assert (G1 : fresh_piece st1 0 q base g).
  { cbn [step] in HS. destruct (stack_new ps ex st base who size al fill bt) as [s r] eqn:E. injection HS as <- Hq.
    pose proof (stack_new_spec ps ex _ _ _ _ _ _ _ _ _ E) as S. destruct r as [p|]; [|discriminate]. injection Hq as Hq.
    destruct S as (b0 & T & Nb & Lim & Hp & Hbs & _). cbv zeta in Hp. unfold index in Nb, Hbs. rewrite Hex in Nb, Hbs.
    assert (b0 = b) by (destruct (blocks st); simpl in *; congruence). subst b0.
    eexists. exists p. rewrite Hbs, (nth_upd_same _ _ _ _ _ Nb). split; [reflexivity|]. split; [cbn [b_pieces]; apply in_elt|].
    split; auto. rewrite Hp. cbn. fold g. auto 12. }
  assert (Hg0 : base <= g).
  { destruct G1 as (b1 & p1 & B1 & B2 & Q1 & Q2 & Q3 & _). pose proof (history_inv ps ex ps_pow2 _ _ H1) as I.
    assert (Hin : In b1 (blocks st1)) by (eapply nth_error_In; eauto). destruct (I_geo _ _ _ I _ _ Hin B2). lia. }
  pose proof (run_fresh _ _ _ _ _ _ _ _ R1 NT G1) as (b2 & p2 & B1 & B2 & Q1 & Q2 & Q3 & Q4 & Q5 & Q6 & Q7 & Q8).
  destruct (run_history _ _ _ _ _ _ R1 H1) as (tr2 & H2). destruct HW as [W1 W2].
  assert (D : denied p2 a true = true).
  { unfold denied. rewrite Q4, Q5, Q6. destruct (N.leb_spec g a); [|lia]. destruct (N.ltb_spec a (g + ps)); [|lia]. auto. }
  destruct (first_offence p2 a true bt2 Q7 D) as (O1 & O2 & O3 & O4 & O5).
  assert (RC : recorded st3 i2 q a false).
  { assert (HW2 : within a (p_page p2) (p_grd p2 + ps)) by (rewrite Q2, Q3; split; lia).
    cbn [step] in HE. injection HE as <-.
    destruct (access_reaches _ _ _ _ _ a true v bt2 H2 B1 B2 HW2) as (b3 & C1 & C2).
    exists b3, (access p2 a true bt2). split; auto. split; auto. split.
    - pose proof (access_core p2 a true bt2) as HC. unfold core in HC. injection HC. intros. congruence.
    - split; auto. split; auto. rewrite O4, Q8. auto. }
  pose proof (run_recorded _ _ _ _ _ _ _ _ R2 RC) as (b4 & p4 & E1 & E2 & E3 & E4 & E5 & E6).
  exists (p_vwrite p4).
  apply (violation_report ps ex st4 st5 fs b4 HP).
  - destruct (blocks st4); auto; discriminate.
  - eauto.
  - exists p4. rewrite E3, E5, E6. auto.
Qed.
End P.
