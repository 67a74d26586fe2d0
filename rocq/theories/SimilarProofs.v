(** Proofs about the likeness of JSON nodes and the search. *)
From Coq Require Import List NArith ZArith QArith Bool Arith Lia Permutation Lqa.
From Verif Require Import Base FilterModel StrModel DiffModel DiffSpec DiffProofs JsonModel JsonSpec JsonProofs3 PrintModel PrintSpec DualProofs SimilarModel SimilarSpec.
Import ListNotations.
Local Open Scope Q_scope.

(** ** texts *)
Lemma c_str_modest s : modest s -> StrModel.c_str s = s.
Proof.
  intros [N _]. induction s as [|c s IH]; [reflexivity|]. cbn [StrModel.c_str]. destruct (N.eqb_spec c 0) as [->|E]; [exfalso; apply N; left; reflexivity|].
  rewrite IH; [reflexivity|]. intro I. apply N. right. exact I.
Qed.
Lemma estimate_self cl s : modest s -> estimate cl s s == 1.
Proof. intros [_ M]. apply estimate_eq_1; [exact M|reflexivity]. Qed.
Lemma fold_length cl s : length (fold_str cl s) = length s.
Proof. unfold fold_str. apply map_length. Qed.
Lemma estimate_close cl s t q : modest s -> modest t -> closeness (fold_str cl s) (fold_str cl t) q -> estimate cl s t == q.
Proof.
  intros _ [_ Mt] [(Es & Et & Eq)|(NE & d & M & Eq)].
  - destruct s; [|discriminate]. destruct t; [|discriminate]. rewrite Eq. reflexivity.
  - rewrite Eq. rewrite !fold_length. pose proof (estimate_value cl s t d Mt M) as V. cbn zeta in V. set (n := inject_Z (Z.of_nat (length s + length t))) in *.
    assert (NZ : ~ n == 0).
    { unfold n. intro H. unfold Qeq, inject_Z in H. cbn [Qnum Qden] in H. assert (length s + length t <> 0)%nat; [|lia]. destruct NE as [NE|NE]; [destruct s|destruct t]; cbn in *; try congruence; lia. }
    apply (Qmult_inj_l _ _ n NZ). rewrite V. field. exact NZ.
Qed.
(** ** one step *)
Lemma den_pos i : 0 < inject_Z (Z.of_nat (S i)).
Proof. unfold Qlt, inject_Z. cbn [Qnum Qden]. lia. Qed.
Lemma ind_nonneg i : 0 <= inject_Z (Z.of_nat i).
Proof. unfold Qle, inject_Z. cbn [Qnum Qden]. lia. Qed.
Lemma tally_mono i s s' x x' : s <= s' -> x <= x' -> tally i s x <= tally i s' x'.
Proof.
  intros A B. unfold tally. apply Qplus_le_compat; [exact A|]. unfold Qdiv. apply Qmult_le_compat_r; [|apply Qlt_le_weak, Qinv_lt_0_compat, den_pos].
  apply Qplus_le_compat; [|exact B]. apply Qmult_le_compat_r; [exact A|apply ind_nonneg].
Qed.
Lemma tally_nonneg i s x : 0 <= s -> 0 <= x -> 0 <= tally i s x.
Proof.
  intros A B. unfold tally. assert (0 <= (s * inject_Z (Z.of_nat i) + x) / inject_Z (Z.of_nat (S i))); [|lra].
  apply Qle_shift_div_l; [apply den_pos|]. rewrite Qmult_0_l. pose proof (Qmult_le_0_compat _ _ A (ind_nonneg i)). lra.
Qed.
Lemma tally_proper i : Proper (Qeq ==> Qeq ==> Qeq) (tally i).
Proof. intros a b E c d F. unfold tally. rewrite E, F. reflexivity. Qed.
(** ** the children's share *)
Definition total {X} (f : nat -> X -> Q) : nat -> Q -> list X -> Q := fix go i sub l := match l with [] => sub | x :: r => go (S i) (tally i sub (f i x)) r end.
Lemma total_mono {X} (f g : nat -> X -> Q) l : forall i s s', s <= s' -> (forall j x, nth_error l j = Some x -> f (i + j)%nat x <= g (i + j)%nat x) -> total f i s l <= total g i s' l.
Proof.
  induction l as [|x l IH]; intros i s s' A B; [exact A|]. cbn [total]. apply IH.
  - apply tally_mono; [exact A|]. specialize (B O x eq_refl). rewrite Nat.add_0_r in B. exact B.
  - intros j y E. specialize (B (S j) y E). rewrite Nat.add_succ_comm. exact B.
Qed.
Lemma total_nonneg {X} (f : nat -> X -> Q) l : forall i s, 0 <= s -> (forall j x, nth_error l j = Some x -> 0 <= f (i + j)%nat x) -> 0 <= total f i s l.
Proof.
  induction l as [|x l IH]; intros i s A B; [exact A|]. cbn [total]. apply IH.
  - apply tally_nonneg; [exact A|]. specialize (B O x eq_refl). rewrite Nat.add_0_r in B. exact B.
  - intros j y E. specialize (B (S j) y E). rewrite Nat.add_succ_comm. exact B.
Qed.
Section Likeness.
Context {num : Type}.
Implicit Types e a : value num.
Lemma sim_arr cl ke le ka la : similarity cl ke (Arr le) ka (Arr la) =
  keyed cl ke ka (blend (length le =? length la)%nat (total (fun i (x : value num) => match nth_error la i with Some y => similarity cl [] x [] y | None => 0 end) O 0 le)).
Proof. reflexivity. Qed.
Definition of_key cl (la : list (bytes * value num)) (p : bytes * value num) : Q :=
  match find (fun q => str_equals false (fst q) (fst p)) la with Some (k', y) => similarity cl (fst p) (snd p) k' y | None => 0 end.
Lemma sim_obj cl ke le ka la : similarity cl ke (Obj le) ka (Obj la) =
  keyed cl ke ka (blend (length le =? length la)%nat (total (fun _ (p : bytes * value num) => of_key cl la p) O 0 le)).
Proof.
  cbn [similarity]. f_equal. f_equal.
  match goal with |- ?g O 0 le = _ => assert (G : forall l i s, g i s l = total (fun _ (p : bytes * value num) => of_key cl la p) i s l) end; [|apply G].
  induction l as [|(k, x) l IH]; intros i s; [reflexivity|]. cbn [total]. rewrite IH. reflexivity.
Qed.
Lemma blend_mono b b' s s' : (b = true -> b' = true) -> s <= s' -> blend b s <= blend b' s'.
Proof. intros B S. unfold blend. destruct b, b'; try (specialize (B eq_refl); discriminate); lra. Qed.
Lemma keyed_le cl k k' s s' : modest k -> (k = [] -> k' = []) -> s <= s' -> keyed cl k k' s <= keyed cl k k s'.
Proof.
  intros M C L. unfold keyed. destruct k as [|c k]; [rewrite C by reflexivity; exact L|].
  pose proof (estimate_le_1 cl (StrModel.c_str (c :: k)) (StrModel.c_str k')). rewrite (c_str_modest (c :: k) M) in *. pose proof (estimate_self cl (c :: k) M) as E. destruct k'; lra.
Qed.
Lemma keyed_nonneg cl k s : modest k -> 0 <= s -> 0 <= keyed cl k k s.
Proof.
  intros M P. unfold keyed. destruct k as [|c k]; [exact P|]. rewrite (c_str_modest (c :: k) M) in *. pose proof (estimate_self cl (c :: k) M) as E. lra.
Qed.
Lemma find_own (l : list (bytes * value num)) p : NoDup (map fst l) -> In p l -> find (fun q => str_equals false (fst q) (fst p)) l = Some p.
Proof.
  induction l as [|q l IH]; intros ND I; [contradiction|]. cbn [map] in ND. inversion ND as [|? ? NI ND']. subst. cbn [find].
  assert (EQ : str_equals false (fst q) (fst p) = true <-> fst q = fst p) by (unfold str_equals; apply bytes_eqb_eq).
  destruct I as [<-|I].
  - replace (str_equals false (fst q) (fst q)) with true; [reflexivity|]. symmetry. apply EQ. reflexivity.
  - destruct (str_equals false (fst q) (fst p)) eqn:E; [|apply IH; assumption]. exfalso. apply NI. rewrite (proj1 EQ eq_refl). apply in_map. exact I.
Qed.
Lemma find_key (l : list (bytes * value num)) k p : find (fun q => str_equals false (fst q) k) l = Some p -> fst p = k.
Proof. intro F. apply find_some in F. destruct F as [_ F]. unfold str_equals in F. apply bytes_eqb_eq. exact F. Qed.
Lemma fold_false (s : bytes) : fold_str false s = s.
Proof. unfold fold_str. cbn. apply map_id. Qed.
Lemma keys_fold (l : list (bytes * value num)) : map (fun p => fold_str false (fst p)) l = map fst l.
Proof. apply map_ext. intro p. apply fold_false. Qed.
(** the greatest likeness is that to itself *)
Lemma self_spec cl e : modest_value e -> unique_keys num false e -> forall k, modest k -> 0 <= similarity cl k e k e /\ forall k' a, (k = [] -> k' = []) -> similarity cl k e k' a <= similarity cl k e k e.
Proof.
  assert (LEAF : forall e, leaf e -> modest (leaf_text e) -> forall k, modest k -> 0 <= similarity cl k e k e /\ forall k' a, (k = [] -> k' = []) -> similarity cl k e k' a <= similarity cl k e k e).
  { intros e0 [LA LO] MT k Mk.
    assert (SE : forall k' a, similarity cl k e0 k' a = keyed cl k k' (if same_kind (kind_of e0) (kind_of a) then estimate cl (StrModel.c_str (value_string e0)) (StrModel.c_str (value_string a)) else 0)).
    { intros k' a. destruct e0 as [| |b|x|s|s|l|l]; try reflexivity; [destruct (LA l eq_refl)|destruct (LO l eq_refl)]. }
    assert (ME : modest (value_string e0)) by (destruct e0; exact MT).
    assert (S1 : estimate cl (StrModel.c_str (value_string e0)) (StrModel.c_str (value_string e0)) == 1) by (rewrite (c_str_modest _ ME); apply estimate_self; exact ME).
    assert (SK : same_kind (kind_of e0) (kind_of e0) = true) by (destruct e0; reflexivity).
    rewrite SE, SK. split; [apply keyed_nonneg; [exact Mk|lra]|]. intros k' a C. rewrite SE. apply keyed_le; [exact Mk|exact C|].
    rewrite S1. destruct (same_kind (kind_of e0) (kind_of a)); [apply estimate_le_1|lra]. }
  induction e as [| |b|x|s|s|l IH|l IH] using value_deep; intros MV U k Mk;
    try (inversion MV; subst; apply LEAF; assumption).
  - inversion MV as [v [LA _] _|? MF|]; [destruct (LA l eq_refl)|subst]. inversion U as [v LA|? UF|]; [destruct (LA l eq_refl)|subst].
    assert (KID : forall x, In x l -> 0 <= similarity cl [] x [] x /\ forall a, similarity cl [] x [] a <= similarity cl [] x [] x).
    { intros x I. rewrite Forall_forall in IH, MF, UF. destruct (IH x I (MF x I) (UF x I) []) as [P1 P2]; [split; [intros []|reflexivity]|]. split; [exact P1|]. intro a. apply P2. reflexivity. }
    assert (P0 : 0 <= blend (length l =? length l)%nat (total (fun i (x : value num) => match nth_error l i with Some y => similarity cl [] x [] y | None => 0 end) O 0 l)).
    { rewrite Nat.eqb_refl. unfold blend. assert (0 <= total (fun i (x : value num) => match nth_error l i with Some y => similarity cl [] x [] y | None => 0 end) O 0 l); [|lra].
      apply total_nonneg; [lra|]. intros j x E. cbn [plus]. rewrite E. apply (KID x). eapply nth_error_In; eassumption. }
    split; [rewrite sim_arr; apply keyed_nonneg; assumption|]. intros k' a C.
    destruct a as [| |b|x|s|s|la|la]; try (change (keyed cl k k' 0 <= similarity cl k (Arr l) k (Arr l)); rewrite sim_arr; apply keyed_le; assumption).
    rewrite !sim_arr. apply keyed_le; [exact Mk|exact C|]. apply blend_mono; [intros _; apply Nat.eqb_refl|]. apply total_mono; [lra|]. intros j x E. cbn [plus]. rewrite E.
    apply nth_error_In in E. destruct (KID x E) as [N0 N1]. destruct (nth_error la j); [apply N1|exact N0].
  - inversion MV as [v [_ LO] _| |? MF]; [destruct (LO l eq_refl)|subst]. inversion U as [v _ LO| |? ND UF]; [destruct (LO l eq_refl)|subst]. rewrite keys_fold in ND.
    assert (KID : forall p, In p l -> 0 <= of_key cl l p /\ forall la, of_key cl la p <= of_key cl l p).
    { intros p I. rewrite Forall_forall in IH, MF, UF. destruct (MF p I) as [Mp Mv]. destruct (IH p I Mv (UF p I) (fst p) Mp) as [P1 P2]. unfold of_key at 1 3. rewrite (find_own l p ND I). destruct p as (kp, vp). cbn [fst snd] in *.
      split; [exact P1|]. intro la. unfold of_key. cbn [fst snd]. destruct (find _ la) as [(kq, vq)|] eqn:F; [|exact P1]. apply find_key in F. cbn [fst] in F. subst kq. apply P2. auto. }
    assert (P0 : 0 <= blend (length l =? length l)%nat (total (fun _ (p : bytes * value num) => of_key cl l p) O 0 l)).
    { rewrite Nat.eqb_refl. unfold blend. assert (0 <= total (fun _ (p : bytes * value num) => of_key cl l p) O 0 l); [|lra].
      apply total_nonneg; [lra|]. intros j x E. apply (KID x). eapply nth_error_In; eassumption. }
    split; [rewrite sim_obj; apply keyed_nonneg; assumption|]. intros k' a C.
    destruct a as [| |b|x|s|s|la|la]; try (change (keyed cl k k' 0 <= similarity cl k (Obj l) k (Obj l)); rewrite sim_obj; apply keyed_le; assumption).
    rewrite !sim_obj. apply keyed_le; [exact Mk|exact C|]. apply blend_mono; [intros _; apply Nat.eqb_refl|]. apply total_mono; [lra|]. intros j x E. apply (KID x). eapply nth_error_In; eassumption.
Qed.
Lemma self_greatest cl k e k' a : modest_value e -> unique_keys num false e -> modest k -> (k = [] -> k' = []) -> similarity cl k e k' a <= similarity cl k e k e.
Proof. intros MV U Mk C. apply (proj2 (self_spec cl e MV U k Mk)). exact C. Qed.
(** leaves *)
Lemma leaf_sim cl k e k' a : leaf e -> similarity cl k e k' a = keyed cl k k' (if same_kind (kind_of e) (kind_of a) then estimate cl (StrModel.c_str (value_string e)) (StrModel.c_str (value_string a)) else 0).
Proof. intros [LA LO]. destruct e as [| |b|x|s|s|l|l]; try reflexivity; [destruct (LA l eq_refl)|destruct (LO l eq_refl)]. Qed.
Lemma same_kind_iff k l : same_kind k l = true <-> k = l.
Proof. split; [destruct k, l; (reflexivity || discriminate)|intros ->; destruct l; reflexivity]. Qed.
Lemma keyed_value cl k k' s q : modest k -> modest k' -> closeness (fold_str cl k) (fold_str cl k') q ->
  keyed cl k k' s == match k, k' with [], [] => s | _, _ => (s + q) / 2 end.
Proof.
  intros M M' C. unfold keyed. rewrite (c_str_modest k M), (c_str_modest k' M'). pose proof (estimate_close cl k k' q M M' C) as E. destruct k, k'; try reflexivity; rewrite E; field.
Qed.
Lemma leaf_score cl k e k' a qv qk : leaf e -> modest (leaf_text e) -> modest (leaf_text a) -> modest k -> modest k' -> kind_of e = kind_of a ->
  closeness (fold_str cl (leaf_text e)) (fold_str cl (leaf_text a)) qv -> closeness (fold_str cl k) (fold_str cl k') qk ->
  similarity cl k e k' a == match k, k' with [], [] => qv | _, _ => (qv + qk) / 2 end.
Proof.
  intros L Me Ma Mk Mk' K Cv Ck. rewrite (leaf_sim cl k e k' a L). rewrite (keyed_value cl k k' _ qk Mk Mk' Ck). rewrite (proj2 (same_kind_iff _ _) K).
  assert (E : forall v : value num, value_string v = leaf_text v) by (intro v; destruct v; reflexivity). rewrite (E e), (E a). rewrite (c_str_modest (leaf_text e) Me). rewrite (c_str_modest _ Ma). pose proof (estimate_close cl _ _ qv Me Ma Cv) as EC.
  destruct k, k'; rewrite EC; reflexivity.
Qed.
Lemma strange_score cl k e k' a qk : modest k -> modest k' -> kind_of e <> kind_of a -> closeness (fold_str cl k) (fold_str cl k') qk ->
  similarity cl k e k' a == match k, k' with [], [] => 0 | _, _ => qk / 2 end.
Proof.
  intros Mk Mk' K Ck. assert (E : similarity cl k e k' a = keyed cl k k' 0) by (destruct e, a; try reflexivity; destruct K; reflexivity).
  rewrite E, (keyed_value cl k k' _ qk Mk Mk' Ck). destruct k, k'; try reflexivity; field.
Qed.
End Likeness.
(** ** the search *)
Section Search.
Context {num : Type}.
Lemma beats_true s m : beats s m = true <-> m < s.
Proof.
  unfold beats. rewrite negb_true_iff. split; intro H.
  - apply Qnot_le_lt. intro L. apply Qle_bool_iff in L. congruence.
  - destruct (Qle_bool s m) eqn:E; [|reflexivity]. apply Qle_bool_iff in E. exfalso. apply (Qlt_not_le _ _ H E).
Qed.
Lemma beats_false s m : beats s m = false <-> s <= m.
Proof. unfold beats. rewrite negb_false_iff. apply Qle_bool_iff. Qed.
Lemma best_spec cl (e : node num) al : forall m straw i, 
  (best num Q beats node_similarity cl e m straw i al = straw /\ Forall (fun a => node_similarity cl e a <= m) al) \/
  exists pre a post, al = pre ++ a :: post /\ best num Q beats node_similarity cl e m straw i al = Some (i + length pre)%nat /\
    m < node_similarity cl e a /\ Forall (fun b => node_similarity cl e b < node_similarity cl e a) pre /\ Forall (fun b => node_similarity cl e b <= node_similarity cl e a) post.
Proof.
  induction al as [|x al IH]; intros m straw i; [left; split; [reflexivity|constructor]|]. cbn [best]. destruct (beats (node_similarity cl e x) m) eqn:B.
  - apply beats_true in B. right. destruct (IH (node_similarity cl e x) (Some i) (S i)) as [[-> F]|(pre & a & post & -> & -> & L & F1 & F2)].
    + exists [], x, al. cbn [length app]. rewrite Nat.add_0_r. repeat split; auto.
    + exists (x :: pre), a, post. cbn [length app]. split; [reflexivity|]. split; [f_equal; lia|]. split; [lra|]. split; [constructor; assumption|assumption].
  - apply beats_false in B. destruct (IH m straw (S i)) as [[-> F]|(pre & a & post & -> & -> & L & F1 & F2)].
    + left. split; [reflexivity|constructor; assumption].
    + right. exists (x :: pre), a, post. cbn [length app]. split; [reflexivity|]. split; [f_equal; lia|]. split; [exact L|]. split; [constructor; [lra|assumption]|assumption].
Qed.
Lemma take_at_mid (pre : list (node num)) a post : take_at num (length pre) (pre ++ a :: post) = Some (a, pre ++ post).
Proof. induction pre as [|x pre IH]; [reflexivity|]. cbn [length app take_at]. rewrite IH. reflexivity. Qed.
Lemma search_cases cl (e : node num) al : (search cl e al = None /\ Forall (fun a => node_similarity cl e a <= 1 # 5) al) \/
  exists pre a post, al = pre ++ a :: post /\ search cl e al = Some (a, pre ++ post) /\ favourite (node_similarity cl) e pre a post.
Proof.
  unfold search, by_search. destruct (best_spec cl e al (1 # 5) None O) as [[-> F]|(pre & a & post & -> & -> & F)]; [left; auto|right].
  exists pre, a, post. split; [reflexivity|]. cbn [plus]. rewrite take_at_mid. split; [reflexivity|exact F].
Qed.
Lemma favourite_unique {X} (lk : X -> X -> Q) e pre a post pre' a' post' : favourite lk e pre a post -> favourite lk e pre' a' post' -> pre ++ a :: post = pre' ++ a' :: post' -> pre = pre' /\ a = a' /\ post = post'.
Proof.
  intros (L & F1 & F2) (L' & F1' & F2') E. revert pre' F1' E. induction pre as [|x pre IH]; intros [|x' pre'] F1' E; cbn [app] in E; injection E as E0 E1; subst.
  - auto.
  - exfalso. inversion F1' as [|? ? G _]. subst. rewrite Forall_forall in F2. specialize (F2 a' ltac:(apply in_or_app; right; left; reflexivity)). lra.
  - exfalso. inversion F1 as [|? ? G _]. subst. rewrite Forall_forall in F2'. specialize (F2' a ltac:(apply in_or_app; right; left; reflexivity)). lra.
  - inversion F1. inversion F1'. subst. destruct (IH ltac:(assumption) pre' ltac:(assumption) E1) as (-> & -> & ->). auto.
Qed.
Lemma search_found cl (e a : node num) al al' : search cl e al = Some (a, al') <-> exists pre post, al = pre ++ a :: post /\ al' = pre ++ post /\ favourite (node_similarity cl) e pre a post.
Proof.
  destruct (search_cases cl e al) as [[-> F]|(pre & b & post & -> & -> & F)].
  - split; [discriminate|]. intros (pre & post & -> & _ & (L & _)). exfalso. rewrite Forall_forall in F. specialize (F a ltac:(apply in_or_app; right; left; reflexivity)). cbn beta in F. lra.
  - split.
    + intro E. injection E as <- <-. exists pre, post. auto.
    + intros (pre' & post' & E & -> & F'). destruct (favourite_unique _ _ _ _ _ _ _ _ F F' E) as (-> & -> & ->). reflexivity.
Qed.
Lemma search_none cl (e : node num) al : search cl e al = None <-> Forall (fun a => node_similarity cl e a <= 1 # 5) al.
Proof.
  destruct (search_cases cl e al) as [[-> F]|(pre & b & post & -> & -> & (L & _))]; [tauto|]. split; [discriminate|]. intro F. exfalso. rewrite Forall_forall in F.
  specialize (F b ltac:(apply in_or_app; right; left; reflexivity)). cbn beta in F. lra.
Qed.
End Search.
(** ** the relation *)
Lemma matched_unique {X} (lk : X -> X -> Q) es al ps es' al' : matched lk es al ps es' al' -> forall ps2 es2 al2, matched lk es al ps2 es2 al2 -> ps = ps2 /\ es' = es2 /\ al' = al2.
Proof.
  induction 1 as [al|e es pre a post ps es' al' F M IH|e es al ps es' al' F M IH]; intros ps2 es2 al2 M2.
  - inversion M2; subst; auto.
  - remember (pre ++ a :: post) as whole_al eqn:EW. inversion M2 as [|? ? pre' a' post' ? ? ? F' M'|? ? ? ? ? ? F' M']; subst.
    + match goal with H : _ ++ _ :: _ = _ ++ _ :: _ |- _ => symmetry in H; destruct (favourite_unique lk _ _ _ _ _ _ _ F F' H) as (-> & -> & ->) end. destruct (IH _ _ _ M') as (-> & -> & ->). auto.
    + exfalso. destruct F as (L & _). rewrite Forall_forall in F'. specialize (F' a ltac:(apply in_or_app; right; left; reflexivity)). cbn beta in F'. lra.
  - inversion M2 as [|? ? pre' a' post' ? ? ? F' M'|? ? ? ? ? ? F' M']; subst.
    + exfalso. destruct F' as (L & _). rewrite Forall_forall in F. specialize (F a' ltac:(apply in_or_app; right; left; reflexivity)). cbn beta in F. lra.
    + destruct (IH _ _ _ M') as (-> & -> & ->). auto.
Qed.
Lemma matched_within {X} (lk : X -> X -> Q) es al ps es' al' : matched lk es al ps es' al' -> forall a, In a al' -> In a al.
Proof.
  induction 1 as [al|e es pre a post ps es' al' F M IH|e es al ps es' al' F M IH]; intros b I; auto. apply IH in I. apply in_app_or in I. apply in_or_app. cbn. tauto.
Qed.
Lemma matched_rest {X} (lk : X -> X -> Q) es al ps es' al' : matched lk es al ps es' al' -> forall e a, In e es' -> In a al' -> lk e a <= 1 # 5.
Proof.
  induction 1 as [al|e es pre a post ps es' al' F M IH|e es al ps es' al' F M IH]; intros x y Ix Iy; [contradiction|auto|].
  destruct Ix as [<-|Ix]; [|auto]. rewrite Forall_forall in F. apply F. eapply matched_within; eassumption.
Qed.
Lemma matched_pairs {X} (lk : X -> X -> Q) es al ps es' al' : matched lk es al ps es' al' -> forall e a, In (e, a) ps -> 1 # 5 < lk e a /\ In e es /\ In a al.
Proof.
  induction 1 as [al|e es pre a post ps es' al' F M IH|e es al ps es' al' F M IH]; intros x y I; [contradiction| |].
  - destruct I as [E|I].
    + injection E as <- <-. split; [apply F|]. split; [left; reflexivity|apply in_or_app; right; left; reflexivity].
    + destruct (IH _ _ I) as (A & B & C). split; [exact A|]. split; [right; exact B|]. apply in_app_or in C. apply in_or_app. cbn. tauto.
  - destruct (IH _ _ I) as (A & B & C). auto with datatypes.
Qed.
