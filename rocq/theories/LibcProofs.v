From Coq Require Import List NArith ZArith Bool Arith Lia.
From Verif Require Import LibcModel LibcSpec.
Import ListNotations.
Local Open Scope N_scope.
Ltac Zify.zify_post_hook ::= Z.to_euclidean_division_equations.

(** number of ranges of the list containing an address *)
Definition hit (x : N) (r : N * N) : nat := if (fst r <=? x) && (x <? fst r + snd r) then 1%nat else 0%nat.
Fixpoint cover (x : N) (rs : list (N * N)) : nat :=
  match rs with [] => 0%nat | r :: rs' => (hit x r + cover x rs')%nat end.

Lemma hit_inside : forall x r, inside x r <-> hit x r = 1%nat.
Proof.
  intros. unfold inside, hit. destruct (N.leb_spec (fst r) x), (N.ltb_spec x (fst r + snd r)); simpl; split; intro; try lia; discriminate.
Qed.

Lemma hit_le : forall x r, (hit x r <= 1)%nat.
Proof. intros. unfold hit. destruct (_ && _); lia. Qed.

Lemma cover_app : forall x a b, cover x (a ++ b) = (cover x a + cover x b)%nat.
Proof. induction a; simpl; intros; auto. rewrite IHa. lia. Qed.

Lemma cover_In : forall x rs r, In r rs -> inside x r -> (1 <= cover x rs)%nat.
Proof.
  induction rs as [|a rs IH]; simpl; intros r H Hi; [destruct H|destruct H as [->|H]].
  - apply hit_inside in Hi. lia.
  - specialize (IH _ H Hi). lia.
Qed.

Lemma cover_zero : forall x rs, (forall r, In r rs -> ~ inside x r) -> cover x rs = 0%nat.
Proof.
  induction rs as [|a rs IH]; simpl; intros H; auto.
  rewrite IH by auto. specialize (H a (or_introl eq_refl)). rewrite hit_inside in H.
  pose proof (hit_le x a). lia.
Qed.

Lemma cover_pos : forall x rs, (1 <= cover x rs)%nat -> exists r, In r rs /\ inside x r.
Proof.
  induction rs as [|a rs IH]; simpl; intros H; [lia|].
  destruct (hit x a) eqn:E.
  - destruct IH as (r & A & B); [lia|]. exists r. auto.
  - exists a. split; auto. apply hit_inside. pose proof (hit_le x a). lia.
Qed.

Lemma cover_disjoint : forall rs, (forall x, (cover x rs <= 1)%nat) -> pairwise_disjoint rs.
Proof.
  intros rs H i. revert rs H. induction i as [|i IH]; intros rs H j r1 r2 Hij H1 H2 (x & X1 & X2).
  - destruct rs as [|r rs]; [discriminate|]. simpl in H1. inversion H1; subst. destruct j; [lia|].
    simpl in H2. apply nth_error_In in H2. specialize (H x). simpl in H. apply hit_inside in X1.
    pose proof (cover_In _ _ _ H2 X2). lia.
  - destruct rs as [|r rs]; [discriminate|]. destruct j; [lia|]. simpl in H1, H2.
    apply (IH rs) with (j := j) (r1 := r1) (r2 := r2); auto; try lia.
    + intro y. specialize (H y). simpl in H. lia.
    + exists x. auto.
Qed.

Lemma total_app : forall a b, total (a ++ b) = total a + total b.
Proof. induction a; simpl; intros; auto. unfold total in *. simpl. rewrite IHa. lia. Qed.

(** what every chunk obeys *)
Definition cok (c : N * N) : Prop := fst c mod 8 = 0 /\ snd c mod 8 = 0 /\ 24 <= snd c.

(** * take *)
Lemma take_spec : forall need fs fs' c, need mod 8 = 0 -> 24 <= need -> take need fs = Some (fs', c) -> Forall cok fs ->
  (forall x, cover x fs = (hit x c + cover x fs')%nat) /\ total fs = snd c + total fs' /\
  Forall cok fs' /\ cok c /\ need <= snd c.
Proof.
  induction fs as [|[a s] fs IH]; intros fs' c Hm Hn H F; [discriminate|].
  simpl in H. inversion F as [|? ? (F1 & F2 & F3) F']; subst. cbn [fst snd] in *.
  destruct (N.leb_spec need s).
  - destruct (N.leb_spec 88 (s - need)); inversion H; subst; clear H.
    + split; [|split; [|split; [|split]]].
      * intro x. cbn [cover]. unfold hit. cbn [fst snd].
        destruct (N.leb_spec a x), (N.ltb_spec x (a + s)), (N.leb_spec (a + (s - need)) x), (N.ltb_spec x (a + (s - need) + need)),
          (N.ltb_spec x (a + (s - need))); simpl; try lia.
      * unfold total. simpl. lia.
      * constructor; auto. unfold cok. cbn [fst snd]. repeat split; auto; try lia.
      * unfold cok. cbn [fst snd]. repeat split; auto; try lia.
      * simpl. lia.
    + split; [|split; [|split; [|split]]]; auto.
      unfold cok. auto.
  - destruct (take need fs) as [[r' c']|] eqn:E; [|discriminate]. inversion H; subst.
    destruct (IH _ _ Hm Hn eq_refl F') as (A & B & C & D & G). split; [|split; [|split; [|split]]]; auto.
    + intro x. cbn [cover]. rewrite A. lia.
    + unfold total in *. simpl. rewrite B. lia.
    + constructor; auto. unfold cok. auto.
Qed.

Lemma take_none : forall need fs, take need fs = None <-> Forall (fun c => snd c < need) fs.
Proof.
  induction fs as [|[a s] fs IH]; simpl.
  - split; auto.
  - destruct (N.leb_spec need s).
    + destruct (N.leb_spec 88 (s - need)); split; intro K; try discriminate; inversion K; simpl in *; lia.
    + destruct (take need fs) as [[r c]|].
      * split; intro K; [discriminate|]. inversion K; subst. destruct IH as [_ IH]. specialize (IH H3). discriminate.
      * split; intro; auto. constructor; auto. apply IH. auto.
Qed.

(** * give *)
Lemma give_spec : forall c fs, cok c -> Forall cok fs ->
  (forall x, cover x (give c fs) = (hit x c + cover x fs)%nat) /\ total (give c fs) = snd c + total fs /\
  Forall cok (give c fs).
Proof.
  intros [b t] fs (C1 & C2 & C3) F. cbn [fst snd] in *.
  induction fs as [|[a s] fs IH]; cbn [give fst snd].
  - split; [|split]; auto. constructor; auto. unfold cok. auto.
  - inversion F as [|? ? (F1 & F2 & F3) F']; subst. cbn [fst snd] in *. specialize (IH F').
    destruct IH as (IA & IB & IC).
    destruct (N.eqb_spec (a + s) b); [|destruct (N.eqb_spec (b + t) a); [|destruct (N.ltb_spec (b + t) a)]].
    + split; [|split].
      * intro x. cbn [cover]. unfold hit. cbn [fst snd].
        destruct (N.leb_spec a x), (N.ltb_spec x (a + (s + t))), (N.leb_spec b x), (N.ltb_spec x (b + t)), (N.ltb_spec x (a + s)); simpl; lia.
      * unfold total. simpl. lia.
      * constructor; auto. unfold cok. cbn [fst snd]. repeat split; auto; lia.
    + split; [|split].
      * intro x. cbn [cover]. unfold hit. cbn [fst snd].
        destruct (N.leb_spec b x), (N.ltb_spec x (b + (t + s))), (N.ltb_spec x (b + t)), (N.leb_spec a x), (N.ltb_spec x (a + s)); simpl; lia.
      * unfold total. simpl. lia.
      * constructor; auto. unfold cok. cbn [fst snd]. repeat split; auto; lia.
    + split; [|split]; auto. constructor; auto. unfold cok. auto.
    + split; [|split].
      * intro x. cbn [cover]. rewrite IA. lia.
      * unfold total in *. simpl. rewrite IB. lia.
      * constructor; auto. unfold cok. auto.
Qed.

(** * alloc over the block chain *)
Definition bfrees (bs : list block) := flat_map frees bs.
Definition bregions (bs : list block) := map (fun b => (base b, bytes_ b)) bs.

Lemma alloc_spec : forall need bs bs' c, need mod 8 = 0 -> 24 <= need -> alloc need bs = Some (bs', c) -> Forall cok (bfrees bs) ->
  bregions bs' = bregions bs /\
  (forall x, cover x (bfrees bs) = (hit x c + cover x (bfrees bs'))%nat) /\ total (bfrees bs) = snd c + total (bfrees bs') /\
  Forall cok (bfrees bs') /\ cok c /\ need <= snd c.
Proof.
  induction bs as [|b bs IH]; intros bs' c Hm Hn H F; [discriminate|].
  cbn [alloc] in H. cbn [bfrees flat_map] in F. apply Forall_app in F. destruct F as [F1 F2].
  destruct (take need (frees b)) as [[fs c']|] eqn:E.
  - inversion H; subst. destruct (take_spec _ _ _ _ Hm Hn E F1) as (A & B & C & D & G).
    split; auto. cbn [bfrees flat_map frees]. split; [|split; [|split; [|split]]]; auto.
    + intro x. rewrite !cover_app, A. lia.
    + rewrite !total_app, B. lia.
    + apply Forall_app. auto.
  - destruct (alloc need bs) as [[r c']|] eqn:E2; [|discriminate]. inversion H; subst.
    destruct (IH _ _ Hm Hn eq_refl F2) as (Z & A & B & C & D & G).
    split; [simpl; f_equal; auto|]. cbn [bfrees flat_map]. split; [|split; [|split; [|split]]]; auto.
    + intro x. rewrite !cover_app. unfold bfrees in A. rewrite A. lia.
    + rewrite !total_app. unfold bfrees in B. rewrite B. lia.
    + apply Forall_app. auto.
Qed.

Lemma alloc_none : forall need bs, alloc need bs = None <-> Forall (fun c => snd c < need) (bfrees bs).
Proof.
  induction bs as [|b bs IH]; cbn [alloc bfrees flat_map].
  - split; auto.
  - rewrite Forall_app, <- take_none. fold (bfrees bs).
    destruct (take need (frees b)) as [[fs c]|].
    + split; [discriminate|]. intros [A _]. discriminate.
    + rewrite <- IH. destruct (alloc need bs) as [[r c]|]; split; intro; auto; try discriminate; destruct H; discriminate.
Qed.

Lemma free_in_spec : forall c bs, bs <> [] -> cok c -> Forall cok (bfrees bs) ->
  bregions (free_in c bs) = bregions bs /\
  (forall x, cover x (bfrees (free_in c bs)) = (hit x c + cover x (bfrees bs))%nat) /\
  total (bfrees (free_in c bs)) = snd c + total (bfrees bs) /\
  Forall cok (bfrees (free_in c bs)).
Proof.
  intros c bs Hne Hc F. destruct bs as [|b bs]; [contradiction|]. cbn [free_in]. unfold block_free.
  assert ((fst c <? base b) && (base b + bytes_ b <=? fst c) = false) as ->.
  { destruct (N.ltb_spec (fst c) (base b)), (N.leb_spec (base b + bytes_ b) (fst c)); simpl; auto; lia. }
  cbn [bfrees flat_map] in F. apply Forall_app in F. destruct F as [F1 F2].
  destruct (give_spec c (frees b) Hc F1) as (A & B & C).
  split; auto. cbn [bfrees flat_map frees]. split; [|split].
  - intro x. rewrite !cover_app, A. lia.
  - rewrite !total_app, B. lia.
  - apply Forall_app. auto.
Qed.

Lemma unlive_spec : forall a l c r, unlive a l = Some (c, r) ->
  fst c = a /\ In c l /\ (forall x, cover x l = (hit x c + cover x r)%nat) /\ total l = snd c + total r /\
  (forall y, In y r -> In y l).
Proof.
  induction l as [|c0 l IH]; simpl; intros c r H; [discriminate|].
  destruct (N.eqb_spec (fst c0) a).
  - inversion H; subst. repeat split; auto.
  - destruct (unlive a l) as [[x r']|] eqn:E; [|discriminate]. inversion H; subst.
    destruct (IH _ _ eq_refl) as (A & B & C & D & G). repeat split; auto.
    + intro y. cbn [cover]. rewrite C. lia.
    + unfold total in *. simpl. rewrite D. lia.
    + intros y [->|Hy]; simpl; auto.
Qed.

(** * the invariant *)
Definition bheaders (bs : list block) := map (fun b => (base b, 32)) bs.

Record Inv (bs : list block) (lv : list (N * N)) : Prop := mkInv {
  inv_tile : forall x, cover x (bfrees bs ++ lv ++ bheaders bs) = cover x (bregions bs);
  inv_regions : forall x, (cover x (bregions bs) <= 1)%nat;
  inv_total : total (bfrees bs) + total lv + 32 * N.of_nat (length bs) = total (bregions bs);
  inv_frees : Forall cok (bfrees bs);
  inv_live : Forall cok lv;
  inv_empty : bs = [] -> lv = [];
  inv_block : Forall (fun r => 4194304 <= snd r) (bregions bs)
}.

Lemma bheaders_regions : forall bs bs', bregions bs' = bregions bs -> bheaders bs' = bheaders bs /\ length bs' = length bs.
Proof.
  induction bs as [|b bs IH]; destruct bs' as [|b' bs']; simpl; intro H; try discriminate; auto.
  inversion H. destruct (IH _ H3). split; congruence.
Qed.

Lemma inv_init : Inv [] [].
Proof. split; auto; try reflexivity; try (intros; simpl; lia); constructor. Qed.

Lemma inv_alloc : forall need bs lv bs' c, Inv bs lv -> need mod 8 = 0 -> 24 <= need -> alloc need bs = Some (bs', c) ->
  Inv bs' (c :: lv) /\ need <= snd c /\ bregions bs' = bregions bs.
Proof.
  intros need bs lv bs' c I Hm Hn H.
  destruct (alloc_spec _ _ _ _ Hm Hn H (inv_frees _ _ I)) as (A & B & C & D & E & G).
  destruct (bheaders_regions _ _ A) as [A1 A2]. split; auto. destruct I. split; auto.
  - intro x. rewrite A, A1, <- inv_tile0. rewrite !cover_app. cbn [cover]. rewrite B. lia.
  - intro x. rewrite A. auto.
  - rewrite A, A2, <- inv_total0, C. unfold total. simpl. lia.
  - intros ->. destruct bs; [|discriminate]. discriminate.
  - rewrite A. auto.
Qed.

Lemma batch_bytes_eq : forall size, size < 2 ^ 64 - 8 -> 16 <= size ->
  batch_bytes size = 0 \/ (4194304 <= batch_bytes size /\ batch_bytes size mod 8 = 0 /\ batch_bytes size mod 4194304 = 0).
Proof.
  intros size H1 H2. unfold batch_bytes, brk_size, two64.
  set (k := (size + 4194304 - 1) / 4194304).
  change (2 ^ 64) with (4194304 * 4398046511104) in *.
  assert (E : k * 4194304 mod (4194304 * 4398046511104) = 4194304 * (k mod 4398046511104)).
  { rewrite N.mul_comm. apply N.mul_mod_distr_l; lia. }
  rewrite E. destruct (N.eq_dec (k mod 4398046511104) 0) as [->|Hk]; [left; reflexivity|right].
  set (q := k mod 4398046511104) in *. clearbody q. clear k E. split; [lia|]. split; lia.
Qed.

Lemma inv_new_block : forall bs lv b n, Inv bs lv -> 4194304 <= n -> n mod 8 = 0 -> b mod 8 = 0 ->
  (forall r, In r (bregions bs) -> ~ overlap (b, n) r) -> Inv (new_block b n :: bs) lv.
Proof.
  intros bs lv b n I Hn Hn8 Hb D. destruct I.
  assert (Hd : forall x, (hit x (b, n) + cover x (bregions bs) <= 1)%nat).
  { intro x. destruct (hit x (b, n)) eqn:E; [apply inv_regions0|].
    assert (inside x (b, n)) by (apply hit_inside; pose proof (hit_le x (b, n)); lia).
    rewrite cover_zero; [pose proof (hit_le x (b, n)); lia|].
    intros r Hr Hx. apply (D r Hr). exists x. auto. }
  split; auto.
  - intro x. specialize (inv_tile0 x). cbn [bfrees flat_map bheaders map bregions new_block frees base bytes_ cover app] in *.
    rewrite !cover_app in *. cbn [cover] in *. unfold bfrees, bheaders, bregions in *. rewrite <- inv_tile0.
    unfold hit. cbn [fst snd].
    destruct (N.leb_spec (b + 32) x), (N.ltb_spec x (b + 32 + (n - 32))), (N.leb_spec b x), (N.ltb_spec x (b + 32)), (N.ltb_spec x (b + n)); simpl; lia.
  - cbn [length]. unfold total in *. cbn [bfrees flat_map bregions map new_block frees base bytes_ app fold_right fst snd] in *.
    unfold bfrees, bregions in *. lia.
  - constructor; auto. unfold cok. cbn [fst snd]. repeat split; try lia.
  - discriminate.
  - constructor; auto.
Qed.

Lemma rounded_eq : forall size, size < 2 ^ 64 - 25 ->
  needed size = rounded size + 8 /\ rounded size mod 8 = 0 /\ size + 10 <= rounded size < size + 18.
Proof.
  intros size H. unfold needed, rounded, two64.
  rewrite (N.mod_small (size + 10)) by lia. rewrite (N.mod_small (size + 10 + 7)) by lia.
  rewrite N.mod_small by lia. lia.
Qed.

Definition st_inv (st : state) := Inv (blocks st) (live st).

Lemma malloc_inv : forall mmap st size st' r, st_inv st -> mmap_ok st mmap -> size < 2 ^ 64 - 25 ->
  malloc mmap st size = (st', r) ->
  st_inv st' /\
  match r with
  | RPtr p => exists s, live st' = (p - 8, s) :: live st /\ 8 <= p /\ size <= s - 8
  | _ => live st' = live st
  end.
Proof.
  intros mmap st size st' r I M Hs H. unfold malloc in H.
  destruct (rounded_eq size Hs) as (R1 & R2 & R3).
  assert (Hm8 : needed size mod 8 = 0) by (rewrite R1; lia).
  assert (Hm24 : 24 <= needed size) by (rewrite R1; lia).
  destruct (alloc (needed size) (blocks st)) as [[bs c]|] eqn:E.
  - inversion H; subst. destruct (inv_alloc _ _ _ _ _ I Hm8 Hm24 E) as (A & B & _).
    split; auto. exists (snd c). destruct c as [a s]. cbn [fst snd live] in *.
    replace (a + 8 - 8) with a by lia. split; auto. split; lia.
  - destruct (mmap (batch_bytes (rounded size))) as [b|] eqn:Eb.
    + destruct (M _ _ Eb) as (M1 & M2 & M2' & M3 & M4).
      destruct (batch_bytes_eq (rounded size)) as [Z|(B1 & B2 & B3)]; try lia.
      assert (I2 : Inv (new_block b (batch_bytes (rounded size)) :: blocks st) (live st)).
      { apply inv_new_block; auto. lia. }
      destruct (alloc (needed size) (new_block b (batch_bytes (rounded size)) :: blocks st)) as [[bs c]|] eqn:E2; inversion H; subst.
      * destruct (inv_alloc _ _ _ _ _ I2 Hm8 Hm24 E2) as (A & B & _).
        split; auto. exists (snd c). destruct c as [a s]. cbn [fst snd live] in *.
        replace (a + 8 - 8) with a by lia. split; auto. split; lia.
      * split; auto.
    + inversion H; subst. split; auto.
Qed.

Lemma free_inv : forall st ptr st' r, st_inv st -> free st ptr = (st', r) -> st_inv st'.
Proof.
  intros st ptr st' r I H. unfold free in H.
  destruct (ptr =? 0); [inversion H; subst; auto|].
  destruct (ptr <? 8); [inversion H; subst; auto|].
  destruct (unlive (ptr - 8) (live st)) as [[c l]|] eqn:E; inversion H; subst; auto.
  destruct (unlive_spec _ _ _ _ E) as (A & B & C & D & G).
  unfold st_inv in *. cbn [blocks live].
  assert (Hne : blocks st <> []).
  { intro Z. destruct I. rewrite (inv_empty0 Z) in B. destruct B. }
  assert (Hc : cok c).
  { destruct I. rewrite Forall_forall in inv_live0. auto. }
  destruct (free_in_spec c (blocks st) Hne Hc (inv_frees _ _ I)) as (P1 & P2 & P3 & P4).
  destruct (bheaders_regions _ _ P1) as [Q1 Q2]. destruct I. split; auto.
  - intro x. rewrite P1, Q1, <- inv_tile0. rewrite !cover_app, P2, C. lia.
  - intro x. rewrite P1. auto.
  - rewrite P1, Q2, P3, <- inv_total0, D. lia.
  - rewrite Forall_forall in *. auto.
  - intro Z. destruct (blocks st) as [|b0 bs0]; [contradiction|]. cbn [free_in] in Z. unfold block_free in Z. destruct (_ && _); discriminate.
  - rewrite P1. auto.
Qed.

Lemma reachable_inv : forall st, reachable st -> st_inv st.
Proof.
  induction 1 as [|st mmap size st' r _ IH M Hs E|st ptr st' _ IH E].
  - apply inv_init.
  - eapply malloc_inv; eauto.
  - eapply free_inv; eauto.
Qed.

(** * consequences *)
Lemma disjoint_all : forall st, reachable st -> pairwise_disjoint (all_frees st ++ live st ++ headers st).
Proof.
  intros st H. apply reachable_inv in H. apply cover_disjoint. intro x.
  destruct H. unfold all_frees, headers. unfold bfrees, bheaders in inv_tile0. rewrite inv_tile0. auto.
Qed.

Lemma inside_region : forall st r x, reachable st -> In r (all_frees st ++ live st ++ headers st) -> inside x r ->
  exists g, In g (regions st) /\ inside x g.
Proof.
  intros st r x H Hr Hx. apply reachable_inv in H. destruct H. apply cover_pos.
  change (regions st) with (bregions (blocks st)). rewrite <- inv_tile0.
  eapply cover_In; eauto.
Qed.

Lemma tiled : forall st x, reachable st ->
  (exists g, In g (regions st) /\ inside x g) -> exists r, In r (all_frees st ++ live st ++ headers st) /\ inside x r.
Proof.
  intros st x H (g & Hg & Hx). apply reachable_inv in H. destruct H. apply cover_pos.
  change (all_frees st ++ live st ++ headers st) with (bfrees (blocks st) ++ live st ++ bheaders (blocks st)).
  rewrite inv_tile0. eapply cover_In; eauto.
Qed.

Lemma malloc_safe : forall st mmap size st' p, reachable st -> mmap_ok st mmap -> size < 2 ^ 64 - 25 ->
  malloc mmap st size = (st', RPtr p) ->
  exists s, live st' = (p - 8, s) :: live st /\ p mod 8 = 0 /\ 8 <= p /\ size <= s - 8.
Proof.
  intros st mmap size st' p H M Hs E. apply reachable_inv in H.
  destruct (malloc_inv _ _ _ _ _ H M Hs E) as (I & s & L & P1 & P2).
  exists s. split; auto. split; auto. destruct I. rewrite L in inv_live0. inversion inv_live0 as [|? ? (C1 & _) _]; subst.
  cbn [fst] in C1. lia.
Qed.

(** the whole user range [p, p+size) is inside one live chunk, disjoint from everything else, in mapped memory *)
Lemma malloc_user_range : forall st mmap size st' p x, reachable st -> mmap_ok st mmap -> size < 2 ^ 64 - 25 ->
  malloc mmap st size = (st', RPtr p) -> inside x (p, size) ->
  (exists g, In g (regions st') /\ inside x g) /\
  (forall r, In r (live st ++ all_frees st' ++ headers st') -> ~ inside x r).
Proof.
  intros st mmap size st' p x H M Hs E Hx.
  destruct (malloc_safe _ _ _ _ _ H M Hs E) as (s & L & P1 & P2 & P3).
  assert (R : reachable st') by (eapply reach_malloc; eauto).
  assert (Hc : inside x (p - 8, s)) by (unfold inside in *; cbn [fst snd] in *; lia).
  split.
  - eapply inside_region; eauto. apply in_or_app. right. apply in_or_app. left. rewrite L. left. reflexivity.
  - intros r Hr Hi. apply reachable_inv in R. destruct R.
    assert (C1 : (cover x (all_frees st' ++ live st' ++ headers st') <= 1)%nat).
    { change (all_frees st') with (bfrees (blocks st')). change (headers st') with (bheaders (blocks st')).
      rewrite inv_tile0. auto. }
    rewrite L in C1. rewrite !cover_app in C1. cbn [cover] in C1.
    pose proof (cover_In _ _ _ Hr Hi) as C2. rewrite !cover_app in C2. apply hit_inside in Hc. lia.
Qed.

Lemma conserved : forall st, reachable st ->
  total (all_frees st) + total (live st) + 32 * N.of_nat (length (blocks st)) = total (regions st).
Proof. intros st H. apply reachable_inv in H. destruct H. auto. Qed.

Lemma free_spec : forall st ptr s, reachable st -> In (ptr - 8, s) (live st) -> 8 <= ptr ->
  exists st', free st ptr = (st', RNull) /\ total (all_frees st') = total (all_frees st) + s /\
              total (live st') + s = total (live st) /\ regions st' = regions st.
Proof.
  intros st ptr s H Hin Hp. pose proof (reachable_inv _ H) as I. unfold free.
  assert (ptr =? 0 = false) as -> by (apply N.eqb_neq; lia).
  assert (ptr <? 8 = false) as -> by (apply N.ltb_ge; lia).
  assert (Hex : exists c l, unlive (ptr - 8) (live st) = Some (c, l)).
  { clear -Hin. induction (live st) as [|c l IH]; [destruct Hin|]. simpl. destruct (N.eqb_spec (fst c) (ptr - 8)); eauto.
    destruct Hin as [->|Hin]; [simpl in n; congruence|]. destruct (IH Hin) as (c' & l' & ->). eauto. }
  destruct Hex as (c & l & E). rewrite E.
  destruct (unlive_spec _ _ _ _ E) as (A & B & C & D & G).
  assert (Hc : cok c). { destruct I. rewrite Forall_forall in inv_live0. auto. }
  assert (Hs : cok (ptr - 8, s)). { destruct I. rewrite Forall_forall in inv_live0. auto. }
  (* two live chunks with the same address have the same size: they would overlap otherwise *)
  assert (Es : c = (ptr - 8, s)).
  { destruct (In_nth_error _ _ B) as (i & Hi). destruct (In_nth_error _ _ Hin) as (j & Hj).
    pose proof (disjoint_all st H) as PD.
    assert (O : overlap c (ptr - 8, s)).
    { exists (ptr - 8). unfold inside. destruct Hc as (_ & _ & ?), Hs as (_ & _ & ?). cbn [fst snd] in *. lia. }
    assert (O' : overlap (ptr - 8, s) c) by (destruct O as (x & ? & ?); exists x; auto).
    set (n := length (all_frees st)).
    assert (Ai : nth_error (all_frees st ++ live st ++ headers st) (n + i) = Some c).
    { rewrite nth_error_app2 by (unfold n; lia). replace (n + i - length (all_frees st))%nat with i by (unfold n; lia).
      rewrite nth_error_app1; auto. apply nth_error_Some. congruence. }
    assert (Aj : nth_error (all_frees st ++ live st ++ headers st) (n + j) = Some (ptr - 8, s)).
    { rewrite nth_error_app2 by (unfold n; lia). replace (n + j - length (all_frees st))%nat with j by (unfold n; lia).
      rewrite nth_error_app1; auto. apply nth_error_Some. congruence. }
    destruct (Nat.lt_trichotomy i j) as [Lt|[->|Lt]].
    - exfalso. apply (PD (n + i)%nat (n + j)%nat c (ptr - 8, s)); auto; lia.
    - congruence.
    - exfalso. apply (PD (n + j)%nat (n + i)%nat (ptr - 8, s) c); auto; lia. }
  subst c. eexists. split; [reflexivity|].
  assert (Hne : blocks st <> []). { intro Z. destruct I. rewrite (inv_empty0 Z) in B. destruct B. }
  destruct (free_in_spec _ (blocks st) Hne Hc (inv_frees _ _ I)) as (P1 & P2 & P3 & P4).
  cbn [snd] in *. unfold all_frees, regions. cbn [blocks live].
  unfold bfrees, bregions in *. rewrite P3, D, P1. repeat split; lia.
Qed.

Lemma all_freed : forall st, reachable st -> live st = [] ->
  total (all_frees st) + 32 * N.of_nat (length (blocks st)) = total (regions st).
Proof. intros st H E. pose proof (conserved st H) as C. rewrite E in C. unfold total at 2 in C. cbn [fold_right] in C. lia. Qed.

(** * success *)
Lemma batch_exact : forall size, size + 4194304 <= 2 ^ 64 -> batch_bytes size = (size + 4194303) / 4194304 * 4194304.
Proof.
  intros size H. unfold batch_bytes, brk_size, two64. replace (size + 4194304 - 1) with (size + 4194303) by lia.
  apply N.mod_small. lia.
Qed.

Lemma malloc_unfold : forall mmap st size, size < 2 ^ 63 ->
  let t := (size + 17) / 8 * 8 in
  malloc mmap st size =
  match alloc (t + 8) (blocks st) with
  | Some (bs, c) => (mkstate bs (c :: live st), RPtr (fst c + 8))
  | None =>
      match mmap ((t + 4194303) / 4194304 * 4194304) with
      | None => (st, RAbort)
      | Some b =>
          match alloc (t + 8) (new_block b ((t + 4194303) / 4194304 * 4194304) :: blocks st) with
          | Some (bs', c) => (mkstate bs' (c :: live st), RPtr (fst c + 8))
          | None => (mkstate (new_block b ((t + 4194303) / 4194304 * 4194304) :: blocks st) (live st), RNull)
          end
      end
  end.
Proof.
  intros mmap st size Hs t.
  destruct (rounded_eq size) as (R1 & R2 & R3); [lia|].
  assert (Ht : rounded size = t).
  { unfold rounded, two64, t. rewrite (N.mod_small (size + 10)) by lia. rewrite N.mod_small by lia.
    f_equal. f_equal. lia. }
  unfold malloc. rewrite R1, Ht. rewrite batch_exact by lia. reflexivity.
Qed.

Lemma malloc_null_iff : forall st mmap size st' r, reachable st -> mmap_ok st mmap -> size < 2 ^ 63 ->
  malloc mmap st size = (st', r) ->
  let t := (size + 17) / 8 * 8 in
  mmap ((t + 4194303) / 4194304 * 4194304) <> None ->
  (r = RNull <-> (Forall (fun c => snd c < t + 8) (all_frees st) /\ (t + 4194303) / 4194304 * 4194304 < t + 40)).
Proof.
  intros st mmap size st' r H M Hs E t Hm.
  rewrite (malloc_unfold mmap st size Hs) in E. fold t in E.
  change (all_frees st) with (bfrees (blocks st)). rewrite <- alloc_none.
  destruct (alloc (t + 8) (blocks st)) as [[bs c]|] eqn:A.
  - inversion E; subst. split; [discriminate|]. intros [? _]; discriminate.
  - destruct (mmap ((t + 4194303) / 4194304 * 4194304)) as [b|] eqn:Eb; [|exfalso; apply Hm; auto].
    cbn [alloc new_block frees base bytes_] in E. cbn [take] in E.
    set (n := (t + 4194303) / 4194304 * 4194304) in *.
    destruct (N.leb_spec (t + 8) (n - 32)).
    + destruct (N.leb_spec (24 + 64) (n - 32 - (t + 8))); inversion E; subst; (split; [discriminate|]); intros [_ ?]; lia.
    + rewrite A in E. inversion E; subst. split; auto. intros _. split; auto. lia.
Qed.

Lemma malloc_succeeds : forall st mmap size st' r,
  reachable st -> mmap_ok st mmap -> size < 2 ^ 63 -> malloc mmap st size = (st', r) ->
  let t := (size + 17) / 8 * 8 in
  mmap ((t + 4194303) / 4194304 * 4194304) <> None ->
  t + 40 <= (t + 4194303) / 4194304 * 4194304 -> exists p, r = RPtr p.
Proof.
  intros st mmap size st' r H M Hs E t Hm Ht.
  pose proof (malloc_null_iff _ _ _ _ _ H M Hs E) as K. cbv zeta in K. fold t in K. specialize (K Hm).
  destruct r as [p| | |]; eauto.
  - destruct K as [K _]. destruct (K eq_refl) as [_ K']. lia.
  - exfalso. revert E. rewrite (malloc_unfold mmap st size Hs). fold t.
    destruct (alloc _ _) as [[? ?]|]; [discriminate|].
    destruct (mmap _) eqn:Eb; [|contradiction]. destruct (alloc _ _) as [[? ?]|]; discriminate.
  - exfalso. revert E. rewrite (malloc_unfold mmap st size Hs). fold t.
    destruct (alloc _ _) as [[? ?]|]; [discriminate|].
    destruct (mmap _) eqn:Eb; [|contradiction]. destruct (alloc _ _) as [[? ?]|]; discriminate.
Qed.
