(** Matching and selecting. *)
From Coq Require Import List NArith ZArith Bool Arith Lia Sorting.Permutation.
From Verif Require Import Base FilterModel StrModel StrSpec ExprModel ExprSpec JsonModel JsonSpec JsonProofs JsonProofs2.
Import ListNotations.
Local Open Scope N_scope.

Section ValueInd.
Variable num : Type.
Variable P : value num -> Prop.
Hypothesis HA : P Absent.
Hypothesis HN : P Null.
Hypothesis HB : forall b, P (Bool b).
Hypothesis HX : forall x, P (Num x).
Hypothesis HS : forall s, P (Str s).
Hypothesis HP : forall s, P (Pat s).
Hypothesis HR : forall l, Forall P l -> P (Arr l).
Hypothesis HO : forall l, Forall (fun p => P (snd p)) l -> P (Obj l).
Fixpoint value_deep (v : value num) : P v :=
  match v with
  | Absent => HA | Null => HN | Bool b => HB b | Num x => HX x | Str s => HS s | Pat s => HP s
  | Arr l => HR l ((fix go l : Forall P l := match l with [] => Forall_nil _ | x :: r => Forall_cons x (value_deep x) (go r) end) l)
  | Obj l => HO l ((fix go l : Forall (fun p => P (snd p)) l := match l with [] => Forall_nil _ | x :: r => Forall_cons x (value_deep (snd x)) (go r) end) l)
  end.
End ValueInd.

Lemma Forall2_length {X Y} (R : X -> Y -> Prop) l l' : Forall2 R l l' -> length l = length l'.
Proof. induction 1; cbn [length]; congruence. Qed.
Section Match.
Variable num : Type.
Variable near : num -> num -> bool.
Variable pat : bool -> bytes -> bytes -> bool.
Variable cl : bool.
Notation meets := (meets num near pat cl).
Notation under := (under num cl).
Notation jmatch := (jmatch near pat cl).

Lemma get_key_under k l v : get_key cl k l = Some v <-> under k l v.
Proof.
  induction l as [|(k', v') l IH].
  - split; [discriminate|]. intros (l1 & k' & l2 & E & _). destruct l1; discriminate.
  - cbn [get_key]. destruct (str_equals cl k' k) eqn:K.
    + apply str_equals_fold in K. split.
      * intro E. injection E as ->. exists [], k', l. repeat split; auto.
      * intros (l1 & k1 & l2 & E & F & G). destruct l1 as [|x l1]; injection E as E1 E2; [congruence|]. subst x. apply Forall_inv in G. cbn [fst] in G. contradiction.
    + assert (N : fold_str cl k' <> fold_str cl k) by (intro H; apply str_equals_fold in H; congruence). rewrite IH. split.
      * intros (l1 & k1 & l2 & -> & F & G). exists ((k', v') :: l1), k1, l2. repeat split; auto.
      * intros (l1 & k1 & l2 & E & F & G). destruct l1 as [|x l1]; injection E as E1 E2; [congruence|]. subst. exists l1, k1, l2. repeat split; auto. apply Forall_inv_tail in G. exact G.
Qed.
Lemma under_one k l v w : under k l v -> under k l w -> v = w.
Proof. rewrite <- !get_key_under. congruence. Qed.
Lemma arr_go la le : Forall (fun p => forall a, jmatch p a = true <-> meets p a) le -> forall i,
  (fix go (i : nat) (l : list (value num)) : bool :=
     match l with [] => true | p :: l' => match nth_error la i with Some q => jmatch p q && go (S i) l' | None => false end end) i le = true
  <-> exists l2 l3, skipn i la = l2 ++ l3 /\ Forall2 meets le l2.
Proof.
  induction 1 as [|p le H F IH]; intro i.
  - split; auto. intros _. exists [], (skipn i la). split; [reflexivity|constructor].
  - destruct (nth_error la i) as [q|] eqn:N.
    + assert (SK : skipn i la = q :: skipn (S i) la).
      { clear -N. revert i N. induction la as [|x la IH]; intros [|i] N; try discriminate; [injection N as ->; reflexivity|]. cbn [skipn]. apply IH. exact N. }
      rewrite andb_true_iff, (IH (S i)), (H q), SK. split.
      * intros (M & l2 & l3 & E & G). exists (q :: l2), l3. split; [cbn [app]; f_equal; exact E|constructor; auto].
      * intros (l2 & l3 & E & G). inversion G as [|p' y le' l2' M' G']. subst. injection E as E1 E2. subst y. split; [auto|]. exists l2', l3. auto.
    + split; [discriminate|]. intros (l2 & l3 & E & G). inversion G. subst. apply nth_error_None in N. rewrite skipn_all2 in E by exact N. discriminate.
Qed.
Lemma obj_go la le : Forall (fun p => forall a, jmatch (snd p) a = true <-> meets (snd p) a) le ->
  (fix go (l : list (bytes * value num)) : bool :=
     match l with [] => true | (k, p) :: l' => match get_key cl k la with Some q => jmatch p q && go l' | None => false end end) le = true
  <-> Forall (fun p => exists v, under (fst p) la v /\ meets (snd p) v) le.
Proof.
  induction 1 as [|(k, p) le H F IH]; [split; auto|]. cbn [fst snd] in *. destruct (get_key cl k la) as [q|] eqn:G.
  - apply get_key_under in G. rewrite andb_true_iff, IH, (H q). split.
    + intros [M R]. constructor; [exists q; auto|exact R].
    + intro R. pose proof (Forall_inv R) as (v & U & M). pose proof (under_one _ _ _ _ G U). subst v. split; [exact M|]. apply Forall_inv_tail in R. exact R.
  - split; [discriminate|]. intro R. pose proof (Forall_inv R) as (v & U & M). apply get_key_under in U. cbn [fst] in U. congruence.
Qed.
Lemma jmatch_meets e : forall a, jmatch e a = true <-> meets e a.
Proof.
  induction e as [| |b|x|s|s|l IH|l IH] using value_deep; intro a.
  - split; [discriminate|]. intro M. inversion M.
  - destruct a; cbn [JsonModel.jmatch]; split; try discriminate; intro M; try (inversion M; fail); [constructor|reflexivity].
  - destruct a; cbn [JsonModel.jmatch]; split; try discriminate; intro M; try (inversion M; fail); [apply Bool.eqb_prop in M; subst; constructor|inversion M; subst; apply eqb_reflx].
  - destruct a; cbn [JsonModel.jmatch]; split; try discriminate; intro M; try (inversion M; fail); [constructor; auto|inversion M; auto].
  - destruct a; cbn [JsonModel.jmatch]; split; try discriminate; intro M; try (inversion M; fail); [constructor; apply str_equals_fold; auto|inversion M; apply str_equals_fold; auto].
  - destruct a; cbn [JsonModel.jmatch]; split; try discriminate; intro M; try (inversion M; fail); [constructor; auto|inversion M; auto].
  - destruct a as [| | | | | |la|la]; try (split; [discriminate|intro M; inversion M]). cbn [JsonModel.jmatch]. rewrite andb_true_iff, (arr_go la l IH 0), Nat.eqb_eq. cbn [skipn]. split.
    + intros (E & l2 & l3 & El & F). pose proof (Forall2_length _ _ _ F) as FL. subst la. rewrite app_length in E. destruct l3 as [|z l3]; [|cbn [length] in E; lia]. rewrite app_nil_r. constructor. exact F.
    + intro M. inversion M as [| | | | |le la' F|]. subst. split; [apply (Forall2_length _ _ _ F)|]. exists la, []. rewrite app_nil_r. auto.
  - destruct a as [| | | | | |la|la]; try (split; [discriminate|intro M; inversion M]). cbn [JsonModel.jmatch]. rewrite andb_true_iff, (obj_go la l IH), Nat.leb_le. split.
    + intros (E & F). constructor; auto.
    + intro M. inversion M. subst. auto.
Qed.
Lemma jmatch_iff e a e' a' : (meets e a <-> meets e' a') -> jmatch e a = jmatch e' a'.
Proof.
  intro H. rewrite <- !jmatch_meets in H. destruct (jmatch e a), (jmatch e' a'); try reflexivity; destruct H as [H1 H2]; [symmetry; apply H1|apply H2]; reflexivity.
Qed.

Lemma under_in k l v : NoDup (map (fun p => fold_str cl (fst p)) l) -> (under k l v <-> exists k', In (k', v) l /\ fold_str cl k' = fold_str cl k).
Proof.
  intro ND. split.
  - intros (l1 & k' & l2 & -> & F & _). exists k'. split; [apply in_or_app; right; left; reflexivity|exact F].
  - intros (k' & I & F). destruct (in_split _ _ I) as (l1 & l2 & ->). exists l1, k', l2. repeat split; auto.
    rewrite map_app in ND. cbn [map fst] in ND. apply NoDup_remove_2 in ND. apply Forall_forall. intros p Ip E. apply ND. apply in_or_app. left.
    rewrite F, <- E. apply (in_map (fun p => fold_str cl (fst p))). exact Ip.
Qed.
Lemma keys_forall2 m l' : Forall2 (fun p q => fst p = fst q /\ shuffled num (snd p) (snd q)) m l' -> map (fun p : bytes * value num => fold_str cl (fst p)) m = map (fun p => fold_str cl (fst p)) l'.
Proof. induction 1 as [|p q m l' (K & _) F IH]; [reflexivity|]. cbn [map]. rewrite K, IH. reflexivity. Qed.
Lemma forall2_in {X Y} (R : X -> Y -> Prop) l l' : Forall2 R l l' -> (forall x, In x l -> exists y, In y l' /\ R x y) /\ (forall y, In y l' -> exists x, In x l /\ R x y).
Proof.
  induction 1 as [|a b l l' Ra F [IH1 IH2]]; [split; intros ? []|]. split.
  - intros x [<-|I]; [exists b; split; [left|]; auto|]. destruct (IH1 x I) as (y & ? & ?). exists y. split; [right|]; auto.
  - intros y [<-|I]; [exists a; split; [left|]; auto|]. destruct (IH2 y I) as (x & ? & ?). exists x. split; [right|]; auto.
Qed.
Lemma actual_order e : forall a a', shuffled num a a' -> unique_keys num cl a -> (meets e a <-> meets e a').
Proof.
  induction e as [| |b|x|s|s|le IH|le IH] using value_deep; intros a a' SH U;
    try (destruct SH; [reflexivity|split; intro M; inversion M|split; intro M; inversion M]; fail).
  - destruct SH as [v|l l' F|l m l' PM F]; [reflexivity| |split; intro M; inversion M].
    assert (UL : Forall (unique_keys num cl) l) by (inversion U as [v N1 N2| |]; subst; [exfalso; eapply N1; reflexivity|auto]).
    assert (Q : Forall2 meets le l <-> Forall2 meets le l').
    { clear U. revert l l' F UL. induction IH as [|p le H FH IH2]; intros l l' F UL.
      - split; intro G; inversion G; subst; inversion F; subst; constructor.
      - split; intro G; inversion G as [|? y ? ys M G']; subst; inversion F as [|? z ? zs Sx F']; subst; constructor.
        + apply (H y z Sx); [apply Forall_inv in UL; exact UL|exact M].
        + apply (IH2 _ _ F'); [apply Forall_inv_tail in UL; exact UL|exact G'].
        + inversion UL; subst. eapply H; [eassumption|assumption|exact M].
        + inversion UL; subst. eapply IH2; [eassumption|assumption|exact G']. }
    split; intro M; inversion M; subst; constructor; apply Q; assumption.
  - destruct SH as [v|l l' F|l m l' PM F]; [reflexivity|split; intro M; inversion M|].
    assert (UL : NoDup (map (fun p => fold_str cl (fst p)) l) /\ Forall (fun p => unique_keys num cl (snd p)) l).
    { inversion U as [v N1 N2| |]; subst; [exfalso; eapply N2; reflexivity|auto]. }
    destruct UL as [ND UL].
    assert (NDm : NoDup (map (fun p => fold_str cl (fst p)) m)) by (eapply Permutation_NoDup; [apply Permutation_map; exact PM|exact ND]).
    assert (ND' : NoDup (map (fun p => fold_str cl (fst p)) l')) by (rewrite <- (keys_forall2 _ _ F); exact NDm).
    assert (UN : forall v, In v (map snd l) -> unique_keys num cl v).
    { intros v I. apply in_map_iff in I. destruct I as (p & <- & I). exact (proj1 (Forall_forall _ _) UL p I). }
    destruct (forall2_in _ _ _ F) as [F1 F2].
    assert (LEN : length l' = length l) by (rewrite (Permutation_length PM); symmetry; apply (Forall2_length _ _ _ F)).
    assert (GO : forall k v, under k l v -> exists v', under k l' v' /\ shuffled num v v' /\ unique_keys num cl v).
    { intros k v H. rewrite under_in in H by exact ND. destruct H as (k' & I & E). assert (UV : unique_keys num cl v) by (apply UN; apply (in_map snd) in I; exact I).
      apply (Permutation_in _ PM) in I. destruct (F1 _ I) as ((k2, v2) & I2 & K2 & S2). cbn [fst snd] in *. subst k2. exists v2. split; [|auto]. rewrite under_in by exact ND'. eauto. }
    assert (BACK : forall k v', under k l' v' -> exists v, under k l v /\ shuffled num v v' /\ unique_keys num cl v).
    { intros k v' H. rewrite under_in in H by exact ND'. destruct H as (k' & I & E). destruct (F2 _ I) as ((k2, v2) & I2 & K2 & S2). cbn [fst snd] in *. subst k2.
      apply (Permutation_in _ (Permutation_sym PM)) in I2. exists v2. split; [rewrite under_in by exact ND; eauto|]. split; [auto|]. apply UN. apply (in_map snd) in I2. exact I2. }
    assert (H0 := proj1 (Forall_forall _ _) IH).
    split; intro M; inversion M as [| | | | | |le' la L FM]; subst; constructor; try lia.
    + apply Forall_forall. intros p I. destruct (proj1 (Forall_forall _ _) FM p I) as (v & Uv & Mv). destruct (GO _ _ Uv) as (v' & Uv' & Sv & UU). exists v'. split; [auto|]. apply (H0 p I v v'); auto.
    + apply Forall_forall. intros p I. destruct (proj1 (Forall_forall _ _) FM p I) as (v & Uv & Mv). destruct (BACK _ _ Uv) as (v' & Uv' & Sv & UU). exists v'. split; [auto|]. apply (H0 p I v' v); auto.
Qed.
Lemma expect_order e : forall e' a, shuffled num e e' -> (meets e a <-> meets e' a).
Proof.
  induction e as [| |b|x|s|s|le IH|le IH] using value_deep; intros e' a SH; try (inversion SH; subst; reflexivity).
  - inversion SH as [v|l l' F|]; subst; [reflexivity|].
    assert (Q : forall la, Forall2 meets le la <-> Forall2 meets l' la).
    { clear SH. revert l' F. induction IH as [|p le H FH IH2]; intros l' F la.
      - inversion F. subst. reflexivity.
      - inversion F as [|? z ? zs Sx F']. subst. split; intro G; inversion G as [|? y ? ys M G']; subst; constructor.
        + apply (H z y Sx). exact M.
        + apply (IH2 _ F'). exact G'.
        + apply (H z y Sx). exact M.
        + apply (IH2 _ F'). exact G'. }
    split; intro M; inversion M; subst; constructor; apply Q; assumption.
  - inversion SH as [v| |l m l' PM F]; subst; [reflexivity|].
    assert (LEN : length l' = length le) by (rewrite (Permutation_length PM); symmetry; apply (Forall2_length _ _ _ F)).
    destruct (forall2_in _ _ _ F) as [F1 F2]. assert (H0 := proj1 (Forall_forall _ _) IH).
    split; intro M; inversion M as [| | | | | |le' la L FM]; subst; constructor; try lia; apply Forall_forall; intros p I.
    + destruct (F2 p I) as (p0 & I0 & K0 & S0). apply (Permutation_in _ (Permutation_sym PM)) in I0.
      destruct (proj1 (Forall_forall _ _) FM p0 I0) as (v & Uv & Mv). exists v. rewrite <- K0. split; [auto|]. apply (H0 p0 I0 _ v S0). exact Mv.
    + assert (Im := Permutation_in _ PM I). destruct (F1 p Im) as (p0 & I0 & K0 & S0).
      destruct (proj1 (Forall_forall _ _) FM p0 I0) as (v & Uv & Mv). exists v. rewrite K0. split; [auto|]. apply (H0 p I _ v S0). exact Mv.
Qed.
Lemma meets_self : (forall x, near x x = true) -> forall v, plain_doc num cl v -> meets v v.
Proof.
  intro NR. induction v as [| |b|x|s|s|l IH|l IH] using value_deep; intro PD; inversion PD; subst; constructor; auto.
  - clear PD. induction IH as [|p l H F IH2]; [constructor|]. inversion H0. subst. constructor; auto.
  - apply Forall_forall. intros (k, v) I. exists v. split.
    + rewrite under_in by assumption. exists k. auto.
    + apply (proj1 (Forall_forall _ _) IH _ I). apply (proj1 (Forall_forall _ _) H1 _ I).
Qed.
Lemma meets_extra le la extra : meets (Obj le) (Obj la) -> meets (Obj le) (Obj (la ++ extra)).
Proof.
  intro M. inversion M as [| | | | | |le' la' L F]. subst. constructor; [rewrite app_length; lia|]. eapply Forall_impl; [|exact F].
  intros p (v & (l1 & k & l2 & -> & U) & Mv). exists v. split; [|exact Mv]. exists l1, k, (l2 ++ extra). rewrite <- app_assoc. auto.
Qed.
Lemma absent_never e a : e = Absent \/ a = Absent -> jmatch e a = false.
Proof.
  intro H. destruct (jmatch e a) eqn:E; [|reflexivity]. apply jmatch_meets in E. destruct H; subst; inversion E.
Qed.
End Match.
Lemma json_match_documents A near pat cl ve va es s : document A ve es -> document A va s ->
  json_match (evaluate A) near pat cl es s = Some (if jmatch near pat cl ve va then 0 else 1)%Z.
Proof. intros D1 D2. unfold json_match. rewrite (tree_of_document A _ _ D1), (tree_of_document A _ _ D2). reflexivity. Qed.

(** ** selectors *)
Lemma new_lexis_trim k w1 w2 : trimmed k -> ws w1 -> ws w2 -> new_lexis (w1 ++ k ++ w2) = k.
Proof.
  intros (NE & H1 & H2) W1 W2. unfold new_lexis. rewrite strip_left_ws by exact W1. destruct k as [|c k]; [congruence|].
  assert (F : firm (c :: k)).
  { split; [apply (H1 c k eq_refl)|]. rewrite (app_removelast_last 0 NE) at 1. rewrite last_app1. apply (H2 (last (c :: k) 0) (removelast (c :: k))). apply app_removelast_last. discriminate. }
  assert (S : strip_left ((c :: k) ++ w2) = (c :: k) ++ w2). { cbn [app strip_left]. destruct F as [Fc _]. apply sp_nb in Fc. rewrite Fc. reflexivity. }
  rewrite S, strip_right_ws by exact W2. pose proof (new_lexis_firm (c :: k) F) as E. unfold new_lexis in E.
  assert (S2 : strip_left (c :: k) = c :: k). { cbn [strip_left]. destruct F as [Fc _]. apply sp_nb in Fc. rewrite Fc. reflexivity. }
  rewrite S2 in E. exact E.
Qed.
Definition opens (r : bytes) : Prop := r = [] \/ exists c t, r = c :: t /\ (c = 46 \/ c = 91).
Lemma selector_dot k : Forall (fun c => c <> 46 /\ c <> 91) k -> forall p r, opens r -> selector InDot p (k ++ r) = add_part true (p ++ k) ++ selector SIdle [] r.
Proof.
  induction 1 as [|c k (H1 & H2) F IH]; intros p r O.
  - cbn [app]. rewrite app_nil_r. destruct O as [-> | (c & t & -> & [-> | ->])]; cbn [selector]; [rewrite app_nil_r; reflexivity|reflexivity|reflexivity].
  - cbn [app selector]. apply N.eqb_neq in H1. apply N.eqb_neq in H2. rewrite H1, H2, IH by exact O. rewrite <- app_assoc. reflexivity.
Qed.
Lemma selector_bracket k : Forall (fun c => c <> 93) k -> forall p r, selector InBracket p (k ++ 93 :: r) = add_part false (p ++ k) ++ selector SIdle [] r.
Proof.
  induction 1 as [|c k H F IH]; intros p r; [cbn; rewrite app_nil_r; reflexivity|].
  cbn [app selector]. apply N.eqb_neq in H. rewrite H, IH. rewrite <- app_assoc. reflexivity.
Qed.
Lemma selector_brackets w1 m w2 r : Forall (fun c => c <> 93) (w1 ++ m ++ w2) -> selector SIdle [] ((91 :: w1 ++ m ++ w2 ++ [93]) ++ r) = add_part false (w1 ++ m ++ w2) ++ selector SIdle [] r.
Proof.
  intro F. replace ((91 :: w1 ++ m ++ w2 ++ [93]) ++ r) with (91 :: (w1 ++ m ++ w2) ++ 93 :: r) by (cbn [app]; rewrite <- !app_assoc; reflexivity).
  cbn [selector]. change (91 =? 46) with false. change (91 =? 91) with true. cbn iota. rewrite selector_bracket by exact F. reflexivity.
Qed.
Lemma decimal_of_digits z s : decimal_of z s -> s <> [] /\ Forall digit s /\ digits 0 s = z.
Proof.
  assert (G : forall l d acc, Forall digit l -> 48 <= d -> d <= 57 -> digits acc (l ++ [d]) = (10 * digits acc l + (Z.of_N d - 48))%Z).
  { induction l as [|c l IH]; intros d acc F L1 L2; cbn [app digits].
    - apply N.leb_le in L1. apply N.leb_le in L2. rewrite L1, L2. reflexivity.
    - pose proof (Forall_inv F) as (B1 & B2). apply N.leb_le in B1. apply N.leb_le in B2. rewrite B1, B2. cbn [andb]. apply IH; auto. apply Forall_inv_tail in F. exact F. }
  induction 1 as [d L1 L2|z s d D (NE & F & E) L1 L2].
  - split; [discriminate|]. split; [repeat constructor; auto|]. pose proof (G [] d 0%Z (Forall_nil _) L1 L2) as X. cbn [app] in X. rewrite X. cbn [digits]. lia.
  - split; [destruct s; discriminate|]. split; [apply Forall_app; split; [exact F|repeat constructor; auto]|]. rewrite G, E by auto. reflexivity.
Qed.
Lemma digit_sp c : digit c -> ~ sp c.
Proof. unfold digit, sp. lia. Qed.
Lemma in_last {X} (s : list X) c r : s = r ++ [c] -> In c s.
Proof. intros ->. apply in_or_app. right. left. reflexivity. Qed.
Lemma digits_trimmed s : s <> [] -> Forall digit s -> trimmed s.
Proof.
  intros NE F. assert (H := proj1 (Forall_forall _ _) F). split; [exact NE|]. split.
  - intros c r ->. apply digit_sp. apply H. left; reflexivity.
  - intros c r E. apply digit_sp. apply H. eapply in_last; exact E.
Qed.
Lemma numeric_digits s : Forall digit s -> numeric s = true.
Proof. induction 1 as [|c s (H1 & H2) F IH]; [reflexivity|]. cbn [numeric forallb]. apply N.leb_le in H1. apply N.leb_le in H2. rewrite H1, H2, orb_true_r. exact IH. Qed.
Lemma numeric_not s : (exists c, In c s /\ c <> 45 /\ ~ digit c) -> numeric s = false.
Proof.
  intros (c & I & N & D). destruct (numeric s) eqn:E; [|reflexivity]. exfalso. unfold numeric in E. rewrite forallb_forall in E. specialize (E c I). unfold digit in D. lia.
Qed.
Lemma quote_trimmed q k : (q = 34 \/ q = 39) -> trimmed (q :: k ++ [q]).
Proof.
  intro Q. split; [discriminate|]. split.
  - intros c r E. injection E as <- _. lia.
  - intros c r E. change (q :: k ++ [q]) with ((q :: k) ++ [q]) in E. apply app_inj_tail in E. destruct E as [_ <-]. lia.
Qed.
Lemma ws_no c w : ~ (c = 32 \/ (9 <= c /\ c <= 13)) -> ws w -> Forall (fun b => b <> c) w.
Proof. intros N. apply Forall_impl. intros a H ->. contradiction. Qed.
Lemma add_key k w1 w2 : trimmed k -> ws w1 -> ws w2 -> add_part true (w1 ++ k ++ w2) = [Key k].
Proof. intros T W1 W2. unfold add_part. rewrite new_lexis_trim by auto. destruct T as (NE & _). destruct k as [|c k]; [congruence|]. reflexivity. Qed.
Lemma step_text_ok s t r : step_text s t -> opens r -> selector SIdle [] (t ++ r) = s :: selector SIdle [] r.
Proof.
  intros ST O. destruct ST as [k w1 w2 T W1 W2 F|k w1 w2 T W1 W2 F X Q1 Q2|q k w1 w2 Q NE W1 W2 F|z s w1 w2 D W1 W2|z s w1 w2 D W1 W2].
  - cbn [app selector]. change (46 =? 46) with true. cbn iota. rewrite selector_dot; [|repeat (apply Forall_app; split)|exact O].
    + cbn [app]. rewrite add_key by auto. reflexivity.
    + eapply Forall_impl; [|exact W1]. cbn. lia.
    + eapply Forall_impl; [|exact F]. cbn. tauto.
    + eapply Forall_impl; [|exact W2]. cbn. lia.
  - rewrite selector_brackets.
    + unfold add_part. rewrite new_lexis_trim by auto. pose proof (numeric_not k X) as NN. destruct T as (NE & _). destruct k as [|c k]; [congruence|]. rewrite NN. cbn [hd] in *.
      cbn [negb andb]. apply N.eqb_neq in Q1. apply N.eqb_neq in Q2. rewrite Q1, Q2. reflexivity.
    + repeat (apply Forall_app; split); [apply ws_no; auto; lia| |apply ws_no; auto; lia]. eapply Forall_impl; [|exact F]. cbn. tauto.
  - rewrite selector_brackets.
    + unfold add_part. rewrite new_lexis_trim by (auto using quote_trimmed).
      rewrite numeric_not by (exists q; split; [left; reflexivity|unfold digit; lia]). cbn [negb andb].
      change (last (q :: k ++ [q]) 0) with (last ((q :: k) ++ [q]) 0). rewrite last_app1.
      replace ((q =? 34) && (q =? 34) || (q =? 39) && (q =? 39)) with true by (destruct Q as [-> | ->]; reflexivity).
      rewrite removelast_last. destruct k; [congruence|reflexivity].
    + repeat (apply Forall_app; split); [apply ws_no; auto; lia| |apply ws_no; auto; lia]. constructor; [lia|]. apply Forall_app; split; [|repeat constructor; lia]. eapply Forall_impl; [|exact F]. cbn. tauto.
  - destruct (decimal_of_digits z s D) as (NE & F & E).
    rewrite selector_brackets.
    + unfold add_part. rewrite new_lexis_trim by (auto using digits_trimmed). pose proof (numeric_digits s F) as ND.
      assert (AT : atoi s = z). { destruct s as [|c s]; [congruence|]. apply Forall_inv in F. assert (N45 : c <> 45) by (unfold digit in F; lia). unfold atoi. rewrite <- E. clear -N45. destruct c as [|c]; [reflexivity|]. repeat (destruct c as [c|c|]; try reflexivity); congruence. }
      destruct s; [congruence|]. rewrite ND, AT. reflexivity.
    + repeat (apply Forall_app; split); [apply ws_no; auto; lia| |apply ws_no; auto; lia]. eapply Forall_impl; [|exact F]. unfold digit. intros; lia.
  - destruct (decimal_of_digits z s D) as (NE & F & E).
    rewrite selector_brackets.
    + unfold add_part. rewrite new_lexis_trim; auto.
      * change (numeric (45 :: s)) with (numeric s). rewrite numeric_digits by exact F. cbn [negb andb app atoi]. rewrite E. reflexivity.
      * split; [discriminate|]. split; [intros c t Ec; injection Ec as <- _; lia|]. intros c t Ec. destruct t as [|y t]; [destruct s; [congruence|discriminate]|]. injection Ec as _ Ec.
        apply digit_sp. apply (proj1 (Forall_forall _ _) F). eapply in_last; exact Ec.
    + repeat (apply Forall_app; split); [apply ws_no; auto; lia| |apply ws_no; auto; lia]. constructor; [discriminate|]. eapply Forall_impl; [|exact F]. unfold digit. intros; lia.
Qed.
Lemma step_text_opens s t r : step_text s t -> opens (t ++ r).
Proof. intros []; right; eexists _, _; (split; [cbn [app]; reflexivity|auto]). Qed.
Lemma path_text_opens l t : path_text l t -> opens t.
Proof. intros [|s t' l' r ST PT]; [left; reflexivity|]. eapply step_text_opens; exact ST. Qed.
Lemma noz_trim_step s t : step_text s t -> noz t.
Proof.
  intros [k w1 w2 T W1 W2 F|k w1 w2 T W1 W2 F X Q1 Q2|q k w1 w2 Q NE W1 W2 F|z s0 w1 w2 D W1 W2|z s0 w1 w2 D W1 W2]; apply noz_cons; try discriminate;
    repeat (apply noz_app); try (apply noz_ws; assumption); try (repeat constructor; discriminate); try (eapply Forall_impl; [|exact F]; cbn; tauto).
  - apply noz_cons; [lia|]. apply noz_app; [eapply Forall_impl; [|exact F]; cbn; tauto|repeat constructor; lia].
  - destruct (decimal_of_digits z s0 D) as (_ & F & _). eapply Forall_impl; [|exact F]. unfold digit. intros; lia.
  - apply noz_cons; [discriminate|]. destruct (decimal_of_digits z s0 D) as (_ & F & _). eapply Forall_impl; [|exact F]. unfold digit. intros; lia.
Qed.
Lemma noz_path l t : path_text l t -> noz t.
Proof. induction 1 as [|s t l r ST PT IH]; [constructor|]. apply noz_app; [eapply noz_trim_step; exact ST|exact IH]. Qed.
Lemma steps_of_text l t : path_text l t -> steps_of t = l.
Proof.
  intro PT. unfold steps_of. rewrite c_str_noz by (eapply noz_path; exact PT).
  induction PT as [|s t l r ST PT IH]; [reflexivity|]. rewrite (step_text_ok s t r ST) by (eapply path_text_opens; exact PT). rewrite IH. reflexivity.
Qed.
Lemma nth_split_z {X} (l : list X) (w : X) n : nth_error l n = Some w <-> exists a b, l = a ++ w :: b /\ length a = n.
Proof.
  split.
  - apply nth_error_split.
  - intros (a & b & -> & <-). rewrite nth_error_app2 by lia. rewrite Nat.sub_diag. reflexivity.
Qed.
Lemma get_index_at {num} (l : list (bytes * value num)) i w :
  get_index i l = Some w <-> exists a b, map snd l = a ++ w :: b /\ (i = Z.of_nat (length a) \/ (i < 0 /\ - i = Z.of_nat (length (w :: b)))%Z).
Proof.
  unfold get_index. assert (LM : length (map snd l) = length l) by apply map_length.
  replace (option_map snd) with (option_map (@snd bytes (value num))) by reflexivity.
  assert (NM : forall n, option_map snd (nth_error l n) = nth_error (map snd l) n) by (intro n; symmetry; apply nth_error_map).
  destruct (i <? 0)%Z eqn:I; [apply Z.ltb_lt in I|apply Z.ltb_ge in I].
  - destruct (Z.of_nat (length l) + i <? 0)%Z eqn:J; [apply Z.ltb_lt in J|apply Z.ltb_ge in J].
    + split; [discriminate|]. intros (a & b & E & [H|[_ H]]); [lia|]. rewrite E, app_length in LM. lia.
    + rewrite NM, nth_split_z. split; intros (a & b & E & H); exists a, b; (split; [exact E|]); rewrite E, app_length in LM; cbn [length] in *; lia.
  - destruct (i <? 0)%Z eqn:J; [apply Z.ltb_lt in J; lia|].
    rewrite NM, nth_split_z. split; intros (a & b & E & H); exists a, b; (split; [exact E|]); lia.
Qed.
Lemma get_key_unkeyed {num} cl k (l : list (value num)) : k <> [] -> get_key cl k (map (fun x => ([], x)) l) = None.
Proof.
  intro NE. induction l as [|x l IH]; [reflexivity|]. cbn [map get_key]. destruct (str_equals cl [] k) eqn:E; [|exact IH].
  apply str_equals_fold in E. destruct k; [congruence|discriminate].
Qed.
Definition proper (s : step) : Prop := match s with Key k => k <> [] | Index _ => True end.
Lemma sel_step_ok {num} cl (v : value num) s w : proper s -> (sel_step cl v s = Some w <-> stepped cl v s w).
Proof.
  intro P. destruct s as [k|i]; cbn [sel_step stepped].
  - destruct v as [| |b|x|t|t|l|l]; cbn [children get_key]; try (split; [discriminate|contradiction]).
    + rewrite get_key_unkeyed by exact P. split; [discriminate|contradiction].
    + apply get_key_under.
  - destruct v as [| |b|x|t|t|l|l]; cbn [children];
      try (split; [intro H; exfalso; unfold get_index in H; cbn in H; destruct (i <? 0)%Z eqn:E; [rewrite E in H|rewrite E in H; destruct (Z.to_nat i)]; discriminate|contradiction]).
    + rewrite get_index_at. rewrite map_map. cbn [snd]. rewrite map_id. reflexivity.
    + apply get_index_at.
Qed.
Lemma step_text_proper s t : step_text s t -> proper s.
Proof. intros []; cbn [proper]; auto; match goal with H : trimmed _ |- _ => apply H end. Qed.
Lemma path_text_proper l t : path_text l t -> Forall proper l.
Proof. induction 1 as [|s t l r ST PT IH]; constructor; [eapply step_text_proper; exact ST|exact IH]. Qed.
Lemma follow_found {num} cl l : Forall proper l -> forall (v w : value num), follow cl (Some v) l = Found w <-> path cl v l w.
Proof.
  induction 1 as [|s l P F IH]; intros v w; cbn [follow].
  - split; [intro E; injection E as ->; constructor|]. intro PT. inversion PT. reflexivity.
  - split.
    + intro E. destruct (sel_step cl v s) as [u|] eqn:SS; [|destruct l; discriminate]. apply sel_step_ok in SS; [|exact P]. econstructor; [exact SS|]. apply IH. exact E.
    + intro PT. inversion PT as [|v' s' u l' z ST PT']. subst. apply sel_step_ok in ST; [|exact P]. rewrite ST. apply IH. exact PT'.
Qed.
Lemma follow_missing {num} cl l : Forall proper l -> forall v : value num,
  follow cl (Some v) l = Missing <-> exists p s u, l = p ++ [s] /\ path cl v p u /\ forall w, ~ stepped cl u s w.
Proof.
  induction 1 as [|s l P F IH]; intro v; cbn [follow].
  - split; [discriminate|]. intros (p & s & u & E & _). destruct p; discriminate.
  - destruct (sel_step cl v s) as [u|] eqn:SS.
    + pose proof (proj1 (sel_step_ok cl v s u P) SS) as ST. rewrite IH. split.
      * intros (p & s' & z & -> & PT & N). exists (s :: p), s', z. split; [reflexivity|]. split; [econstructor; eauto|exact N].
      * intros (p & s' & z & E & PT & N). destruct p as [|s0 p]; injection E as <- E.
        -- inversion PT. subst. exfalso. eapply N. exact ST.
        -- inversion PT as [|v' s1 u' l' z' ST' PT']. subst. apply sel_step_ok in ST'; [|exact P]. assert (u' = u) by congruence. subst u'. exists p, s', z. auto.
    + assert (NS : forall w, ~ stepped cl v s w) by (intros w H; apply sel_step_ok in H; [congruence|exact P]). split.
      * destruct l; [|discriminate]. intros _. exists [], s, v. split; [reflexivity|]. split; [constructor|exact NS].
      * intros (p & s' & z & E & PT & N). destruct p as [|s0 p]; injection E as <- E; [subst; reflexivity|]. inversion PT. subst. exfalso. eapply NS. eassumption.
Qed.
Lemma follow_null {num} cl l : Forall proper l -> forall v : value num,
  follow cl (Some v) l = NullDeref <-> exists p s q u, l = p ++ s :: q /\ q <> [] /\ path cl v p u /\ forall w, ~ stepped cl u s w.
Proof.
  induction 1 as [|s l P F IH]; intro v; cbn [follow].
  - split; [discriminate|]. intros (p & s & q & u & E & _). destruct p; discriminate.
  - destruct (sel_step cl v s) as [u|] eqn:SS.
    + pose proof (proj1 (sel_step_ok cl v s u P) SS) as ST. rewrite IH. split.
      * intros (p & s' & q & z & -> & NE & PT & N). exists (s :: p), s', q, z. split; [reflexivity|]. split; [exact NE|]. split; [econstructor; eauto|exact N].
      * intros (p & s' & q & z & E & NE & PT & N). destruct p as [|s0 p]; injection E as <- E.
        -- inversion PT. subst. exfalso. eapply N. exact ST.
        -- inversion PT as [|v' s1 u' l' z' ST' PT']. subst. apply sel_step_ok in ST'; [|exact P]. assert (u' = u) by congruence. subst u'. exists p, s', q, z. auto.
    + assert (NS : forall w, ~ stepped cl v s w) by (intros w H; apply sel_step_ok in H; [congruence|exact P]). split.
      * destruct l as [|s2 l]; [discriminate|]. intros _. exists [], s, (s2 :: l), v. split; [reflexivity|]. split; [discriminate|]. split; [constructor|exact NS].
      * intros (p & s' & q & z & E & NE & PT & N). destruct p as [|s0 p]; injection E as <- E; [subst; destruct q; [congruence|reflexivity]|]. inversion PT. subst. exfalso. eapply NS. eassumption.
Qed.
