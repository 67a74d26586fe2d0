(** What the two columns of a JSON diff say. *)
From Coq Require Import List NArith ZArith Bool Arith Lia Sorting.Permutation.
From Verif Require Import Base FilterModel ExprModel ExprSpec StrModel LineModel JsonModel JsonSpec JsonProofs JsonProofs3 PrintModel PrintSpec PrintProofs DualProofs.
Import ListNotations.
Local Open Scope N_scope.

Section DualInd.
Variable P : dual -> Prop.
Hypothesis HS : P Stuck.
Hypothesis HD : forall h ch, Forall P ch -> P (Dual h ch).
Fixpoint dual_deep (d : dual) : P d :=
  match d with
  | Stuck => HS
  | Dual h ch => HD h ch ((fix go l : Forall P l := match l with [] => Forall_nil _ | x :: r => Forall_cons x (dual_deep x) (go r) end) ch)
  end.
End DualInd.

(** ** rows *)
Lemma samesize_length (a b : list line) : length (samesize a b) = Nat.max (length a) (length b).
Proof. unfold samesize. rewrite app_length, repeat_length. lia. Qed.
Lemma align_rows fold d : length (fst (align fold d)) = length (snd (align fold d)).
Proof. destruct d as [|h ch]; [reflexivity|]. cbn [align]. cbn zeta. cbn [fst snd]. rewrite !samesize_length. lia. Qed.
Lemma align_run fold l : length (concat (map (fun d => fst (align fold d)) l)) = length (concat (map (fun d => snd (align fold d)) l)).
Proof. induction l as [|d l IH]; [reflexivity|]. cbn [map concat]. rewrite !app_length, IH, align_rows. reflexivity. Qed.

(** ** one side *)
Section OneSide.
Variable A : alg.
Variable show : R A -> bytes.
Variable ty : head -> kind.
Variable key val style : head -> bytes.
Variable lst : head -> bool.
Variable sel : list line * list line -> list line.
Variable fold : nat.
Definition pres (d : dual) : bool := match d with Stuck => false | Dual h _ => match ty h with KAbsent => false | _ => true end end.
Definition flag (d : dual) : bool := match d with Stuck => true | Dual h _ => lst h end.
Hypothesis sel_stuck : sel (align fold Stuck) = [].
Hypothesis sel_dual : forall h ch, exists m, (m = 1 \/ m = 2)%nat /\
  sig (sel (align fold (Dual h ch))) = sig (side m (depth_of h) (ty h) (front (depth_of h) (ty h) (key h) (val h) (style h) (key_equal h) (value_match h)) (back (ty h) (lst h)) (concat (map (fun d => sel (align fold d)) ch))).
Fixpoint pflags (l : list dual) : Prop := match l with [] => True | d :: r => (pres d = true -> flag d = negb (existsb pres r)) /\ pflags r end.
Inductive good : dual -> Prop := Good h ch : pflags ch -> Forall good ch -> (ty h = KAbsent -> filter pres ch = []) -> good (Dual h ch).
(** the node of key [k] and value [v], children in order *)
Inductive side_of : dual -> bytes -> value (R A) -> Prop :=
| Side h ch k v : ty h = kind_of v -> key h = format_key [34] k -> val h = format_value show [34] v ->
    Forall2 (fun d kv => side_of d (fst kv) (snd kv)) (filter pres ch) (children v) -> side_of (Dual h ch) k v.
Definition says (d : dual) : list bytes := sig (sel (align fold d)).
Lemma says_kids ch : sig (concat (map (fun d => sel (align fold d)) ch)) = concat (map says ch).
Proof. induction ch as [|d ch IH]; [reflexivity|]. cbn [map concat]. rewrite sig_app, IH. reflexivity. Qed.
Lemma ctrl_sig s r : filter signif (([27; 123] ++ s) :: r) = filter signif r.
Proof. cbn [filter]. unfold signif at 1. cbn. reflexivity. Qed.
Lemma color_sig w s : visible w -> filter signif (color w s) = [w].
Proof. intro V. unfold color. rewrite ctrl_sig. rewrite filter_visible by exact V. rewrite ctrl_sig. reflexivity. Qed.
Lemma side_sig m dep k fr bk cs : (m = 1 \/ m = 2)%nat -> (container k = true \/ sig cs = []) -> sig (side m dep k fr bk cs) = filter signif fr ++ sig cs ++ filter signif bk.
Proof.
  intros [-> | ->] C; cbn [side].
  - rewrite sig_one, !filter_app, sig_folds. reflexivity.
  - destruct (container k) eqn:K.
    + rewrite !sig_app, !sig_one, filter_app, sig_indent. reflexivity.
    + destruct C as [C|C]; [discriminate|]. rewrite C, sig_one, filter_app. reflexivity.
Qed.
Lemma absent_says d : good d -> pres d = false -> says d = [].
Proof.
  induction d as [|h ch IH] using dual_deep; intros G Pf; [inversion G|]. inversion G as [h' ch' PF FG AB]. subst. cbn [pres] in Pf. destruct (ty h) eqn:T; try discriminate.
  destruct (sel_dual h ch) as (m & M & E). unfold says. rewrite E.
  assert (K : sig (concat (map (fun d => sel (align fold d)) ch)) = []).
  { rewrite says_kids. specialize (AB eq_refl). clear - AB FG IH. induction ch as [|d ch IHc]; [reflexivity|]. cbn [filter] in AB. destruct (pres d) eqn:Pd; [discriminate|]. inversion FG. inversion IH. subst.
    cbn [map concat]. rewrite H5 by auto. cbn [app]. apply IHc; auto. }
  rewrite side_sig by auto. rewrite K, T. unfold front. rewrite !filter_app, sig_indent. reflexivity.
Qed.
Definition clean (k : bytes) : Prop := Forall (fun c => c <> 0 /\ c <> 34 /\ c <> 92) k.
Lemma kids_say ch : Forall (fun d => forall k v, good d -> side_of d k v -> showable A show v -> clean k -> says d = kwords k ++ vwords show v ++ comma (negb (flag d))) ch ->
  pflags ch -> Forall good ch -> forall kvs, Forall2 (fun d kv => side_of d (fst kv) (snd kv)) (filter pres ch) kvs -> Forall (fun kv => clean (fst kv) /\ showable A show (snd kv)) kvs ->
  concat (map says ch) = mwords show kvs.
Proof.
  induction 1 as [|d ch H F IH]; intros PF FG kvs F2 FC.
  - inversion F2. reflexivity.
  - destruct PF as [Pd PF]. inversion FG as [|? ? Gd FG']. subst. cbn [map concat]. cbn [filter] in F2. destruct (pres d) eqn:Ed.
    + inversion F2 as [|? (k, v) ? kvs' S1 S2]. subst. inversion FC as [|? ? [C1 C2] FC']. subst. cbn [fst snd] in *. rewrite (H k v Gd S1 C2 C1), (IH PF FG' kvs' S2 FC'), mwords_cons, (Pd eq_refl).
      assert (E : existsb pres ch = following kvs').
      { clear - S2. assert (L := Forall2_length _ _ _ S2). clear S2. revert kvs' L. induction ch as [|d ch IHc]; intros kvs' L; cbn [filter existsb] in *; [destruct kvs'; [reflexivity|discriminate]|].
        destruct (pres d); [destruct kvs'; [discriminate|reflexivity]|]. apply IHc. exact L. }
      rewrite E, negb_involutive, <- !app_assoc. reflexivity.
    + rewrite absent_says by auto. apply IH; auto.
Qed.
Lemma side_says d : forall k v, good d -> side_of d k v -> showable A show v -> clean k -> says d = kwords k ++ vwords show v ++ comma (negb (flag d)).
Proof.
  induction d as [|h ch IH] using dual_deep; intros k v G So SH CK; [inversion G|]. inversion G as [h' ch' PF FG AB]. subst. inversion So as [h' ch' k' v' T K V F2]. subst.
  assert (KS := kids_say ch IH PF FG (children v) F2).
  assert (FC : Forall (fun kv => clean (fst kv) /\ showable A show (snd kv)) (children v)).
  { destruct SH; cbn [children]; try constructor.
    - apply Forall_forall. intros p I. apply in_map_iff in I. destruct I as (x & <- & I). cbn [fst snd]. split; [constructor|]. exact (proj1 (Forall_forall _ _) H x I).
    - eapply Forall_impl; [|exact H]. cbn. unfold clean. tauto. }
  specialize (KS FC). destruct (sel_dual h ch) as (m & M & E). unfold says. rewrite E. rewrite side_sig; [|exact M|].
  2:{ destruct v; cbn [kind_of] in T; rewrite T; try (left; reflexivity); right; rewrite says_kids, KS; reflexivity. }
  rewrite says_kids, KS. cbn [flag].
  assert (FR : filter signif (front (depth_of h) (ty h) (key h) (val h) (style h) (key_equal h) (value_match h)) =
    kwords k ++ (if container (ty h) then [] else [format_value show [34] v]) ++ filter signif (match ty h with KObj => [str "{"] | KArr => [str "["] | _ => [] end)).
  { unfold front. rewrite !filter_app, sig_indent. cbn [app]. f_equal; [|f_equal].
    - rewrite K. destruct k as [|c k]; cbn [format_key kwords]; [destruct (ty h); reflexivity|]. assert (NA : ty h <> KAbsent) by (rewrite T; destruct SH; discriminate). cbn [app].
      assert (VV : visible (34 :: c :: k ++ [34])) by (apply visible_head; [unfold sp; lia|discriminate]).
      destruct (ty h); try congruence; rewrite filter_app, color_sig by exact VV; reflexivity.
    - rewrite V, T. destruct (container (kind_of v)) eqn:C.
      + destruct v; try discriminate; reflexivity.
      + pose proof (scalar_visible A show v SH C) as VV. remember (format_value show [34] v) as w eqn:Ew. destruct w as [|x w]; [discriminate|]. destruct SH; cbn [kind_of] in *; try discriminate; apply color_sig; exact VV. }
  assert (BK : filter signif (back (ty h) (lst h)) = (match ty h with KObj => [str "}"] | KArr => [str "]"] | _ => [] end) ++ comma (negb (lst h))).
  { unfold back. assert (NA : ty h <> KAbsent) by (rewrite T; destruct SH; discriminate). destruct (ty h), (lst h); try congruence; reflexivity. }
  rewrite FR, BK. clear E FR BK KS IH FG F2 So. rewrite T. rewrite <- !app_assoc. f_equal.
  assert (IW : forall l, mwords show (map (pair []) l) = iwords show l).
  { induction l as [|x l IHl]; [reflexivity|]. cbn [map]. rewrite mwords_cons, iwords_cons, IHl. destruct l; reflexivity. }
  destruct SH; cbn [kind_of container children]; try reflexivity.
  - rewrite IW, vwords_arr. cbn [app]. rewrite <- ?app_assoc. reflexivity.
  - rewrite vwords_obj. cbn [app]. rewrite <- ?app_assoc. reflexivity.
Qed.
End OneSide.

(** ** both sides *)
Lemma sig_same a b : sig (samesize a b) = sig a.
Proof. unfold samesize. rewrite sig_app. replace (sig (repeat [] _)) with (@nil bytes); [apply app_nil_r|]. induction (length b - length a)%nat; [reflexivity|]. cbn [repeat]. exact IHn. Qed.
Section Both.
Variable A : alg.
Variable show : R A -> bytes.
Variable fold : nat.
Hypothesis low : (fold <= 1)%nat.
Lemma mode_low h (b : bool) : exists m, (m = 1 \/ m = 2)%nat /\ (if ((2 <=? fold) && key_equal h && value_match h)%nat || ((3 <=? fold)%nat && apart h) then O else if b then 1%nat else 2%nat) = m.
Proof.
  replace (2 <=? fold)%nat with false by (symmetry; apply Nat.leb_gt; lia). replace (3 <=? fold)%nat with false by (symmetry; apply Nat.leb_gt; lia). cbn [andb orb]. destruct b; eauto.
Qed.
Lemma e_sel h ch : exists m, (m = 1 \/ m = 2)%nat /\
  sig (fst (align fold (Dual h ch))) = sig (side m (depth_of h) (e_type h) (front (depth_of h) (e_type h) (e_key h) (e_value h) (e_style h) (key_equal h) (value_match h)) (back (e_type h) (e_last h)) (concat (map (fun d => fst (align fold d)) ch))).
Proof.
  cbn [align]. cbn zeta. rewrite !map_map. set (b := negb (fold =? 0)%nat && foldable _ && foldable _). destruct (mode_low h b) as (m & M & E). exists m. split; [exact M|]. rewrite E. cbn [fst]. apply sig_same.
Qed.
Lemma a_sel h ch : exists m, (m = 1 \/ m = 2)%nat /\
  sig (snd (align fold (Dual h ch))) = sig (side m (depth_of h) (a_type h) (front (depth_of h) (a_type h) (a_key h) (a_value h) (a_style h) (key_equal h) (value_match h)) (back (a_type h) (a_last h)) (concat (map (fun d => snd (align fold d)) ch))).
Proof.
  cbn [align]. cbn zeta. rewrite !map_map. set (b := negb (fold =? 0)%nat && foldable _ && foldable _). destruct (mode_low h b) as (m & M & E). exists m. split; [exact M|]. rewrite E. cbn [snd]. apply sig_same.
Qed.
Lemma e_good d : consistent d -> good e_type e_last d.
Proof.
  induction d as [|h ch IH] using dual_deep; intro C; inversion C as [h' ch' F FC E1 E2]. subst. constructor.
  - clear - F. induction ch as [|d ch IHc]; [exact I|]. destruct F as (F1 & _ & F3). split; [exact F1|apply IHc; exact F3].
  - clear - IH FC. induction IH as [|d ch Hd _ IHc]; [constructor|]. inversion FC. subst. constructor; auto.
  - exact E1.
Qed.
Lemma a_good d : consistent d -> good a_type a_last d.
Proof.
  induction d as [|h ch IH] using dual_deep; intro C; inversion C as [h' ch' F FC E1 E2]. subst. constructor.
  - clear - F. induction ch as [|d ch IHc]; [exact I|]. destruct F as (_ & F1 & F3). split; [exact F1|apply IHc; exact F3].
  - clear - IH FC. induction IH as [|d ch Hd _ IHc]; [constructor|]. inversion FC. subst. constructor; auto.
  - exact E2.
Qed.
Lemma in_filter_forall {X} (P : X -> Prop) f l : Forall P l -> Forall P (filter f l).
Proof. induction 1; cbn [filter]; [constructor|]. destruct (f x); auto. Qed.
Lemma left_side d : forall k v, left_of show d k v -> side_of A show e_type e_key e_value d k v.
Proof.
  induction d as [|h ch IH] using dual_deep; intros k v L; inversion L as [h' ch' k' v' H1 H2 H3 H4]. subst. constructor; auto.
  change (pres e_type) with e_present. apply (in_filter_forall _ e_present) in IH. clear - H4 IH. induction H4 as [|d kv ds kvs L F IHF]; [constructor|]. inversion IH. subst. constructor; auto.
Qed.
Lemma right_side d : forall k v, right_of show d k v -> exists v', rearranged v v' /\ side_of A show a_type a_key a_value d k v'.
Proof.
  induction d as [|h ch IH] using dual_deep; intros k v L; inversion L as [h' ch' k' v' l H1 H2 H3 H4 H5 H6]. subst.
  apply (in_filter_forall _ a_present) in IH. clear L.
  assert (K : exists l', Forall2 (fun p q => fst p = fst q /\ rearranged (snd p) (snd q)) l l' /\ Forall2 (fun d kv => side_of A show a_type a_key a_value d (fst kv) (snd kv)) (filter a_present ch) l').
  { clear - H6 IH. induction H6 as [|d (k, v) ds kvs L F IHF]; [exists []; split; constructor|]. inversion IH as [|? ? Hd IH']. subst. destruct (Hd _ _ L) as (v' & Rv & Sv). destruct (IHF IH') as (l' & F1 & F2).
    exists ((k, v') :: l'). split; constructor; auto. }
  destruct K as (l' & F1 & F2).
  assert (SC : children v = [] -> exists v', rearranged v v' /\ side_of A show a_type a_key a_value (Dual h ch) k v').
  { intro E. rewrite E in H4. apply Permutation_nil in H4. subst l. inversion F1. subst. exists v. split; [constructor|]. constructor; auto. rewrite E. exact F2. }
  destruct v as [| | | | | |vs|kvs]; try (apply SC; reflexivity).
  - cbn [children] in H4. apply Permutation_sym, Permutation_map_inv in H4. destruct H4 as (m & -> & PM). exists (Arr (map snd l')). split.
    + apply Re_arr with (m := m); [exact PM|]. clear - F1. remember (map (fun x : value (R A) => (@nil N, x)) m) as l eqn:El. revert m El. induction F1 as [|p q l l' [E1 E2] F IHF]; intros [|x m] El; try discriminate; [constructor|]. injection El as -> ->. cbn [map snd] in *. constructor; auto.
    + constructor; auto. cbn [children].
      assert (E : map (fun x : value (R A) => (@nil N, x)) (map snd l') = l').
      { clear - F1. remember (map (fun x : value (R A) => (@nil N, x)) m) as l eqn:El. revert m El. induction F1 as [|p q l l' [E1 E2] F IHF]; intros [|x m] El; try discriminate; [reflexivity|]. injection El as -> ->. destruct q as (qk, qv). cbn [map fst snd] in *. rewrite (IHF m eq_refl), <- E1. reflexivity. }
      rewrite E. exact F2.
  - cbn [children] in H4. exists (Obj l'). split; [econstructor; eassumption|]. constructor; auto.
Qed.
Lemma rearranged_showable v : forall v', rearranged v v' -> showable A show v -> showable A show v'.
Proof.
  induction v as [| |b|x|s|s|l IH|l IH] using value_deep; intros v' RE SH; inversion RE as [w|l0 m l' PM F|l0 m l' PM F]; subst; auto.
  - inversion SH as [| | | | |l0 FS|]. subst. constructor. apply (Permutation_Forall PM) in FS. apply (Permutation_Forall PM) in IH. clear - F FS IH. induction F as [|x y m l' R F IHF]; [constructor|]. inversion FS. inversion IH. subst. constructor; auto.
  - inversion SH as [| | | | | |l0 FS]. subst. constructor. apply (Permutation_Forall PM) in FS. apply (Permutation_Forall PM) in IH. clear - F FS IH. induction F as [|x y m l' [R1 R2] F IHF]; [constructor|]. inversion FS as [|? ? (Q1 & Q2 & Q3) FS']. inversion IH. subst. constructor; [rewrite <- R1; auto|auto].
Qed.
Lemma showable_whole v : showable A show v -> whole v.
Proof.
  induction v as [| |b|x|s|s|l IH|l IH] using value_deep; intro SH; inversion SH; subst; constructor.
  - clear SH. induction IH; [constructor|]. inversion H0. subst. constructor; auto.
  - clear SH. induction IH; [constructor|]. inversion H0 as [|? ? (Q1 & Q2 & Q3) ?]. subst. constructor; auto.
Qed.
Lemma left_column d v : consistent d -> left_of show d [] v -> showable A show v -> e_flag d = true -> document A v (shown (fst (align fold d))).
Proof.
  intros C L SH FL. apply (rendered_document A show); [exact SH|].
  pose proof (side_says A show e_type e_key e_value e_style e_last fst fold e_sel d [] v (e_good d C) (left_side d [] v L) SH (Forall_nil _)) as S1.
  unfold says in S1. change (flag e_last d) with (e_flag d) in S1. rewrite FL in S1. cbn [kwords app negb comma] in S1. rewrite app_nil_r in S1. rewrite <- S1. apply rendered_shown.
Qed.
Lemma right_column d v : consistent d -> right_of show d [] v -> showable A show v -> a_flag d = true -> exists v', rearranged v v' /\ document A v' (shown (snd (align fold d))).
Proof.
  intros C L SH FL. destruct (right_side d [] v L) as (v' & RE & SO). exists v'. split; [exact RE|]. apply (rearranged_showable _ _ RE) in SH. apply (rendered_document A show); [exact SH|].
  pose proof (side_says A show a_type a_key a_value a_style a_last snd fold a_sel d [] v' (a_good d C) SO SH (Forall_nil _)) as S1.
  unfold says in S1. change (flag a_last d) with (a_flag d) in S1. rewrite FL in S1. cbn [kwords app negb comma] in S1. rewrite app_nil_r in S1. rewrite <- S1. apply rendered_shown.
Qed.
Variable near : R A -> R A -> bool.
Variable pat : bool -> bytes -> bytes -> bool.
Variable score : Type.
Variable gt : score -> score -> bool.
Variable floor : score.
Variable sim : bool -> (nat * (bytes * value (R A))) -> (nat * (bytes * value (R A))) -> score.
Lemma diff_shown n cl e a : showable A show e -> showable A show a -> (height e <= n)%nat -> (height a <= n)%nat ->
  document A e (shown (fst (diff show near pat gt floor sim n cl fold e a))) /\
  exists a', rearranged a a' /\ document A a' (shown (snd (diff show near pat gt floor sim n cl fold e a))).
Proof.
  intros SE SA HE HA.
  assert (L : (0 < n)%nat) by (pose proof (height_pos _ e); lia).
  destruct (mk_spec (R A) show near pat score gt floor sim n cl 0 false (Some (O, ([], e))) (Some (O, ([], a)))) as ((LO & _) & (RO & _) & C); [split; [apply showable_whole; exact SE|exact HE]|split; [apply showable_whole; exact SA|exact HA]|exact L|].
  cbn [fst snd] in *. unfold diff. destruct n as [|n]; [lia|].
  split; [apply left_column; auto|apply right_column; auto].
Qed.
End Both.

(** ** any pair of nodes *)
Lemma dual_left num show near pat score gt floor sim n cl depth rel i k (e : value num) j k' (a : value num) : whole e -> whole a -> (height e <= n)%nat -> (height a <= n)%nat ->
  left_of show (mk_dual num show near pat score gt floor sim n cl depth rel (Some (i, (k, e))) (Some (j, (k', a)))) k e.
Proof.
  intros WE WA HE HA. assert (L : (0 < n)%nat) by (pose proof (height_pos _ e); lia).
  destruct (mk_spec num show near pat score gt floor sim n cl depth rel (Some (i, (k, e))) (Some (j, (k', a)))) as ((LO & _) & _); [split; auto|split; auto|exact L|exact LO].
Qed.
Lemma dual_right num show near pat score gt floor sim n cl depth rel i k (e : value num) j k' (a : value num) : whole e -> whole a -> (height e <= n)%nat -> (height a <= n)%nat ->
  right_of show (mk_dual num show near pat score gt floor sim n cl depth rel (Some (i, (k, e))) (Some (j, (k', a)))) k' a.
Proof.
  intros WE WA HE HA. assert (L : (0 < n)%nat) by (pose proof (height_pos _ e); lia).
  destruct (mk_spec num show near pat score gt floor sim n cl depth rel (Some (i, (k, e))) (Some (j, (k', a)))) as (_ & (RO & _) & _); [split; auto|split; auto|exact L|exact RO].
Qed.
Lemma dual_pairs num show near pat score gt floor sim n cl depth rel i ke le j ka la k v k' w :
  whole (Obj le) -> whole (Obj la) -> (height (@Obj num le) <= n)%nat -> (height (@Obj num la) <= n)%nat ->
  NoDup (map (fun p => fold_str cl (fst p)) le) -> NoDup (map (fun p => fold_str cl (fst p)) la) -> In (k, v) le -> In (k', w) la -> fold_str cl k' = fold_str cl k ->
  exists h ch c, mk_dual num show near pat score gt floor sim n cl depth rel (Some (i, (ke, Obj le))) (Some (j, (ka, Obj la))) = Dual h ch /\ In c ch /\ left_of show c k v /\ right_of show c k' w.
Proof.
  intros WE WA HE HA. destruct n as [|n]; [cbn in HE; lia|]. apply mk_pairs; split; assumption.
Qed.
