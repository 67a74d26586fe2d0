(** Colours of a JSON diff, and what is folded. *)
From Coq Require Import List NArith ZArith Bool Arith Lia Sorting.Permutation.
From Verif Require Import Base FilterModel ExprModel ExprSpec StrModel LineModel JsonModel JsonSpec JsonProofs JsonProofs3 PrintModel PrintSpec PrintProofs DualProofs DualProofs2.
Import ListNotations.
Local Open Scope N_scope.

Lemma fold_quote cl k : fold_str cl (34 :: k ++ [34]) = 34 :: fold_str cl k ++ [34].
Proof. unfold fold_str. cbn [map]. rewrite map_app. destruct cl; reflexivity. Qed.
Lemma key_equal_iff cl k k' : str_equals cl (format_key [34] k) (format_key [34] k') = true <-> fold_str cl k = fold_str cl k'.
Proof.
  rewrite str_equals_fold. unfold format_key. destruct k as [|c k], k' as [|c' k'].
  - tauto.
  - split; intro H; [|discriminate H]. destruct cl; discriminate H.
  - split; intro H; [|discriminate H]. destruct cl; discriminate H.
  - change ([34] ++ (c :: k) ++ [34]) with (34 :: (c :: k) ++ [34]). change ([34] ++ (c' :: k') ++ [34]) with (34 :: (c' :: k') ++ [34]). rewrite !fold_quote. split; intro H; [|rewrite H; reflexivity].
    assert (G : forall x y : bytes, 34 :: x ++ [34] = 34 :: y ++ [34] -> x = y) by (intros x y E; injection E as E; apply app_inj_tail in E; apply E). apply G. exact H.
Qed.
Lemma indented_eq d : indent ([] : line) (d * 2) = indented d.
Proof. unfold indent, indented. destruct d as [|d]; [reflexivity|]. replace (S d * 2 =? 0)%nat with false by reflexivity. rewrite Nat.mul_comm. reflexivity. Qed.
Lemma color_painted w s : color w s = painted s w.
Proof. reflexivity. Qed.
Lemma written_value {num} (show : num -> bytes) v t : written show v t -> format_value show [34] v = t /\ t <> [] /\ container (kind_of v) = false /\ kind_of v <> KAbsent /\ children v = [].
Proof. destruct 1; cbn; repeat split; try discriminate; try reflexivity. assumption. Qed.
Lemma front_painted depth k key val style keq vm (K : bytes) : k <> KAbsent -> container k = false -> key = format_key [34] K -> val <> [] ->
  front depth k key val style keq vm = indented depth ++ keyed (if keq then [] else style) K ++ painted (if vm then [] else style) val.
Proof.
  intros A C -> V. unfold front. rewrite indented_eq, !color_painted. f_equal. unfold format_key, keyed.
  destruct k; try congruence; try discriminate; destruct K as [|c K]; (destruct val as [|x val]; [congruence|]); cbn [app]; rewrite ?app_nil_r; reflexivity.
Qed.
Lemma side_leaf m depth k fr bk : container k = false -> (m <= 2)%nat -> side m depth k fr bk [] = [fr ++ bk].
Proof. intros C M. destruct m as [|[|[|m]]]; [| | |lia]; cbn [side]; rewrite ?C; reflexivity. Qed.
Lemma leaf_children num show near pat score gt floor sim n cl depth rel e a : container (okind num e) = false -> container (okind num a) = false ->
  exists h, mk_dual num show near pat score gt floor sim (S n) cl depth rel e a = Dual h [] /\
  h = {| depth_of := depth; apart := rel; index := option_map fst e; key_equal := str_equals cl (okey num e) (okey num a);
              value_match := match e, a with Some x, Some y => jmatch near pat cl (snd (snd x)) (snd (snd y)) | _, _ => false end;
              e_last := true; a_last := true; e_type := okind num e; a_type := okind num a; e_key := okey num e; a_key := okey num a; e_value := ovalue num show e; a_value := ovalue num show a |}.
Proof. intros E A. eexists. split; [|reflexivity]. cbn [mk_dual]. destruct (okind num e), (okind num a); try discriminate; reflexivity. Qed.
Lemma align_leaf fold h : container (e_type h) = false -> container (a_type h) = false -> exists m, (m <= 2)%nat /\ align fold (Dual h []) =
  ([front (depth_of h) (e_type h) (e_key h) (e_value h) (e_style h) (key_equal h) (value_match h) ++ back (e_type h) (e_last h)],
   [front (depth_of h) (a_type h) (a_key h) (a_value h) (a_style h) (key_equal h) (value_match h) ++ back (a_type h) (a_last h)]).
Proof.
  intros E A. cbn [align map concat]. set (m := if _ || _ then O else _). assert (M : (m <= 2)%nat) by (subst m; destruct (_ || _); [lia|]; destruct (_ && _); lia). exists m. split; [exact M|]. cbn zeta. rewrite !side_leaf by assumption. reflexivity.
Qed.
Lemma leaf_colours num show near pat score gt floor sim n cl depth rel fold i k (e : value num) j k' (a : value num) t u : written show e t -> written show a u ->
  exists same_key matching, (same_key = true <-> fold_str cl k = fold_str cl k') /\ (matching = true <-> meets num near pat cl e a) /\
  align fold (mk_dual num show near pat score gt floor sim (S n) cl depth rel (Some (i, (k, e))) (Some (j, (k', a)))) =
  ([indented depth ++ keyed (if same_key then [] else left_colour rel) k ++ painted (if matching then [] else left_colour rel) t],
   [indented depth ++ keyed (if same_key then [] else right_colour rel) k' ++ painted (if matching then [] else right_colour rel) u]).
Proof.
  intros T U. destruct (written_value show e t T) as (VE & NE & CE & AE & _). destruct (written_value show a u U) as (VA & NA & CA & AA & _).
  exists (str_equals cl (format_key [34] k) (format_key [34] k')), (jmatch near pat cl e a). split; [apply key_equal_iff|]. split; [apply jmatch_meets|].
  destruct (leaf_children num show near pat score gt floor sim n cl depth rel (Some (i, (k, e))) (Some (j, (k', a))) CE CA) as (h & -> & ->).
  match goal with |- align fold (Dual ?x []) = _ => destruct (align_leaf fold x CE CA) as (m & _ & ->) end.
  cbn [depth_of e_type a_type e_key a_key e_value a_value key_equal value_match e_last a_last okind okey ovalue fst snd]. rewrite VE, VA.
  rewrite (front_painted depth (kind_of e) _ t _ _ _ k AE CE eq_refl NE), (front_painted depth (kind_of a) _ u _ _ _ k' AA CA eq_refl NA).
  assert (B : forall w : value num, container (kind_of w) = false -> kind_of w <> KAbsent -> back (kind_of w) true = []) by (intros w Cw _; destruct w; try discriminate Cw; reflexivity).
  rewrite (B e CE AE), (B a CA AA), !app_nil_r. f_equal; f_equal.
  - assert (ES : forall h, e_style h = match a_type h with KAbsent => str "light blue" | _ => left_colour (apart h) end) by (intro h; reflexivity). rewrite ES. cbn [a_type apart]. destruct a; try (contradiction AA; reflexivity); reflexivity.
  - assert (ES : forall h, a_style h = match e_type h with KAbsent => str "light purple" | _ => right_colour (apart h) end) by (intro h; reflexivity). rewrite ES. cbn [e_type apart]. destruct e; try (contradiction AE; reflexivity); reflexivity.
Qed.
Lemma leaf_alone num show near pat score gt floor sim n cl depth rel fold i k (v : value num) t : written show v t ->
  align fold (mk_dual num show near pat score gt floor sim (S n) cl depth rel (Some (i, (k, v))) None) =
    ([indented depth ++ keyed (str "light blue") k ++ painted (str "light blue") t], [indented depth]) /\
  align fold (mk_dual num show near pat score gt floor sim (S n) cl depth rel None (Some (i, (k, v)))) =
    ([indented depth], [indented depth ++ keyed (str "light purple") k ++ painted (str "light purple") t]).
Proof.
  intro T. destruct (written_value show v t T) as (V & NE & CE & AE & _).
  assert (KQ : k <> [] -> str_equals cl (format_key [34] k) [] = false /\ str_equals cl [] (format_key [34] k) = false).
  { intro K. destruct k as [|c k]; [congruence|]. split; apply not_true_iff_false; rewrite str_equals_fold; destruct cl; discriminate. }
  assert (KY : forall (b : bool) s, (k <> [] -> b = false) -> keyed (if b then [] else s) k = keyed s k) by (intros b s0 H; destruct k as [|c k]; [reflexivity|]; rewrite H by discriminate; reflexivity).
  split.
  - destruct (leaf_children num show near pat score gt floor sim n cl depth rel (Some (i, (k, v))) None CE eq_refl) as (h & -> & ->).
    match goal with |- align fold (Dual ?x []) = _ => destruct (align_leaf fold x CE eq_refl) as (m & _ & ->) end.
    cbn [depth_of e_type a_type e_key a_key e_value a_value key_equal value_match e_last a_last okind okey ovalue fst snd]. rewrite V.
    rewrite (front_painted depth (kind_of v) _ t _ _ _ k AE CE eq_refl NE). rewrite (KY _ _ (fun K => proj1 (KQ K))).
    replace (back (kind_of v) true) with (@nil bytes) by (destruct v; try discriminate CE; reflexivity). unfold front. rewrite indented_eq. cbn [app back]. rewrite !app_nil_r. reflexivity.
  - destruct (leaf_children num show near pat score gt floor sim n cl depth rel None (Some (i, (k, v))) eq_refl CE) as (h & -> & ->).
    match goal with |- align fold (Dual ?x []) = _ => destruct (align_leaf fold x eq_refl CE) as (m & _ & ->) end.
    cbn [depth_of e_type a_type e_key a_key e_value a_value key_equal value_match e_last a_last okind okey ovalue fst snd]. rewrite V.
    rewrite (front_painted depth (kind_of v) _ t _ _ _ k AE CE eq_refl NE). rewrite (KY _ _ (fun K => proj2 (KQ K))).
    replace (back (kind_of v) true) with (@nil bytes) by (destruct v; try discriminate CE; reflexivity). unfold front. rewrite indented_eq. cbn [app back]. rewrite !app_nil_r. reflexivity.
Qed.

(** ** short documents are never elided *)
Definition room (ws : list bytes) : nat := list_sum (map (@length N) ws).
Lemma foldable_room ls : foldable ls = (room (sig ls) <? 20)%nat.
Proof. reflexivity. Qed.
Lemma room_app a b : room (a ++ b) = (room a + room b)%nat.
Proof. unfold room. rewrite map_app, list_sum_app. reflexivity. Qed.
Section Short.
Variable sel : list line * list line -> list line.
Variable ty : head -> kind.
Variable fr bk : head -> line.
Hypothesis sel_stuck : forall fold, sel (align fold Stuck) = [].
Hypothesis sel_dual : forall fold h ch, exists m, (m <= 2)%nat /\ (fold = O -> m = 2%nat) /\
  sig (sel (align fold (Dual h ch))) = sig (side m (depth_of h) (ty h) (fr h) (bk h) (concat (map (fun d => sel (align fold d)) ch))).
(** below a scalar or a missing element there is nothing *)
Inductive tidy : dual -> Prop := Tidy h ch : (container (ty h) = false -> forall fold, sig (concat (map (fun d => sel (align fold d)) ch)) = []) -> Forall tidy ch -> tidy (Dual h ch).
Lemma short_sig fold d : tidy d -> (room (sig (sel (align 0 d))) < 20)%nat -> sig (sel (align fold d)) = sig (sel (align 0 d)).
Proof.
  induction d as [|h ch IH] using dual_deep; intros T L; [rewrite !sel_stuck; reflexivity|]. inversion T as [h' ch' C F]. subst.
  destruct (sel_dual 0 h ch) as (m0 & M0 & Z & E0). rewrite (Z eq_refl) in E0. rewrite E0 in L |- *. destruct (sel_dual fold h ch) as (m & M & _ & ->).
  assert (S2 : forall m fold, (m = 1 \/ m = 2)%nat -> sig (side m (depth_of h) (ty h) (fr h) (bk h) (concat (map (fun d => sel (align fold d)) ch))) = filter signif (fr h) ++ sig (concat (map (fun d => sel (align fold d)) ch)) ++ filter signif (bk h)).
  { intros m' fold' M'. apply side_sig; [exact M'|]. destruct (container (ty h)) eqn:K; [left; reflexivity|right; apply C; reflexivity]. }
  rewrite (S2 2%nat 0%nat) in L |- * by auto. rewrite !room_app in L.
  assert (KIDS : sig (concat (map (fun d => sel (align fold d)) ch)) = sig (concat (map (fun d => sel (align 0 d)) ch))).
  { assert (L' : (room (sig (concat (map (fun d => sel (align 0 d)) ch))) < 20)%nat) by lia. clear - IH F L'. induction ch as [|d ch IHc]; [reflexivity|]. inversion IH as [|? ? Hd IH']. inversion F as [|? ? Td F']. subst. cbn [map concat] in *. rewrite sig_app, room_app in L'. rewrite !sig_app. f_equal; [apply Hd; [exact Td|lia]|apply IHc; auto; lia]. }
  destruct m as [|m].
  - cbn [side]. rewrite foldable_room, KIDS. replace (room _ <? 20)%nat with true by (symmetry; apply Nat.ltb_lt; lia). rewrite sig_one, !filter_app, sig_folds, KIDS. reflexivity.
  - rewrite (S2 (S m) fold) by lia. rewrite KIDS. reflexivity.
Qed.
Hypothesis fr_absent : forall h, ty h = KAbsent -> filter signif (fr h) = [].
Hypothesis bk_absent : forall h, ty h = KAbsent -> filter signif (bk h) = [].
Variable lst : head -> bool.
Lemma none_sig fold ch : Forall (fun d => sig (sel (align fold d)) = []) ch -> sig (concat (map (fun d => sel (align fold d)) ch)) = [].
Proof. induction 1 as [|d ch H F IH]; [reflexivity|]. cbn [map concat]. rewrite sig_app, H, IH. reflexivity. Qed.
Lemma unfiltered (f : dual -> bool) ch : filter f ch = [] -> Forall (fun d => f d = false) ch.
Proof. induction ch as [|d ch IH]; intro E; [constructor|]. cbn [filter] in E. destruct (f d) eqn:Fd; [discriminate|]. constructor; auto. Qed.
Lemma absent_sig fold d : good ty lst d -> pres ty d = false -> sig (sel (align fold d)) = [].
Proof.
  induction d as [|h ch IH] using dual_deep; intros G P; [inversion G|]. inversion G as [h' ch' PF FG AB]. subst. cbn [pres] in P. destruct (ty h) eqn:T; try discriminate.
  assert (K : sig (concat (map (fun d => sel (align fold d)) ch)) = []).
  { apply none_sig. specialize (AB eq_refl). apply unfiltered in AB. clear - AB FG IH. induction IH; [constructor|]. inversion FG. inversion AB. subst. constructor; auto. }
  destruct (sel_dual fold h ch) as (m & M & _ & ->). destruct m as [|m].
  - cbn [side]. rewrite foldable_room, K. cbn [room map list_sum fold_right Nat.ltb Nat.leb]. rewrite sig_one, !filter_app, sig_folds, K, fr_absent, bk_absent by exact T. reflexivity.
  - rewrite side_sig; [|lia|right; exact K]. rewrite K, fr_absent, bk_absent by exact T. reflexivity.
Qed.
Variable A : alg.
Variable show : R A -> bytes.
Variable key val : head -> bytes.
Lemma side_tidy d : good ty lst d -> (pres ty d = false \/ exists k v, side_of A show ty key val d k v) -> tidy d.
Proof.
  induction d as [|h ch IH] using dual_deep; intros G H; [inversion G|]. inversion G as [h' ch' PF FG AB]. subst.
  assert (KIDS : Forall (fun d => pres ty d = false \/ exists k v, side_of A show ty key val d k v) ch /\ (container (ty h) = false -> filter (pres ty) ch = [])).
  { destruct H as [P|(k & v & So)].
    - cbn [pres] in P. destruct (ty h) eqn:T; try discriminate. specialize (AB eq_refl). split; [|auto]. apply unfiltered in AB. eapply Forall_impl; [|exact AB]. auto.
    - inversion So as [h' ch' k' v' T K V F2]. subst. split.
      + clear - F2. revert F2. generalize (children v). induction ch as [|d ch IHc]; intros l F2; [constructor|]. cbn [filter] in F2. destruct (pres ty d) eqn:Pd; [|constructor; [left; exact Pd|apply (IHc _ F2)]].
        inversion F2 as [|? kv ? l' S1 S2]. subst. constructor; [right; eauto|apply (IHc _ S2)].
      + intro C. rewrite T in C. assert (children v = []) by (destruct v; try discriminate C; reflexivity). rewrite H in F2. inversion F2. reflexivity. }
  destruct KIDS as [K1 K2]. constructor.
  - intros C fold. apply none_sig. specialize (K2 C). apply unfiltered in K2. clear - K2 FG sel_dual fr_absent bk_absent. induction FG; [constructor|]. inversion K2. subst. constructor; [apply absent_sig; auto|auto].
  - clear - IH FG K1. induction IH as [|d ch Hd _ IHc]; [constructor|]. inversion FG. inversion K1. subst. constructor; auto.
Qed.
End Short.
Definition lfront (h : head) : line := front (depth_of h) (e_type h) (e_key h) (e_value h) (e_style h) (key_equal h) (value_match h).
Definition rfront (h : head) : line := front (depth_of h) (a_type h) (a_key h) (a_value h) (a_style h) (key_equal h) (value_match h).
Lemma front_absent depth k key val style keq vm : k = KAbsent -> filter signif (front depth k key val style keq vm) = [].
Proof. intros ->. unfold front. rewrite !filter_app, sig_indent. reflexivity. Qed.
Lemma mode_le fold h (b c : bool) : exists m, (m <= 2)%nat /\ (fold = O -> m = 2%nat) /\
  (if ((2 <=? fold) && key_equal h && value_match h)%nat || ((3 <=? fold)%nat && apart h) then O else if negb (fold =? 0)%nat && b && c then 1%nat else 2%nat) = m.
Proof. eexists. split; [|split; [|reflexivity]]; [destruct (_ || _); [lia|]; destruct (_ && _); lia|]. intros ->. reflexivity. Qed.
Lemma l_sel fold h ch : exists m, (m <= 2)%nat /\ (fold = O -> m = 2%nat) /\
  sig (fst (align fold (Dual h ch))) = sig (side m (depth_of h) (e_type h) (lfront h) (back (e_type h) (e_last h)) (concat (map (fun d => fst (align fold d)) ch))).
Proof.
  cbn [align]. cbn zeta. rewrite !map_map. match goal with |- context [negb (fold =? 0)%nat && ?x && ?y] => destruct (mode_le fold h x y) as (m & M & Z & E) end. exists m. split; [exact M|]. split; [exact Z|]. rewrite E. cbn [fst]. apply sig_same.
Qed.
Lemma r_sel fold h ch : exists m, (m <= 2)%nat /\ (fold = O -> m = 2%nat) /\
  sig (snd (align fold (Dual h ch))) = sig (side m (depth_of h) (a_type h) (rfront h) (back (a_type h) (a_last h)) (concat (map (fun d => snd (align fold d)) ch))).
Proof.
  cbn [align]. cbn zeta. rewrite !map_map. match goal with |- context [negb (fold =? 0)%nat && ?x && ?y] => destruct (mode_le fold h x y) as (m & M & Z & E) end. exists m. split; [exact M|]. split; [exact Z|]. rewrite E. cbn [snd]. apply sig_same.
Qed.
Lemma room_string ls : length (lines_string ls) = room (sig ls).
Proof. unfold lines_string, room, sig, signif. induction (filter _ (concat ls)) as [|w l IH]; [reflexivity|]. cbn [concat map]. rewrite app_length, IH. reflexivity. Qed.
Lemma short_shown A show near pat score gt floor sim n cl fold e a : showable A show e -> showable A show a -> (height e <= n)%nat -> (height a <= n)%nat ->
  ((length (lines_string (fst (@diff (R A) show near pat score gt floor sim n cl 0 e a))) < 20)%nat -> document A e (shown (fst (@diff (R A) show near pat score gt floor sim n cl fold e a)))) /\
  ((length (lines_string (snd (@diff (R A) show near pat score gt floor sim n cl 0 e a))) < 20)%nat -> exists a', rearranged a a' /\ document A a' (shown (snd (@diff (R A) show near pat score gt floor sim n cl fold e a)))).
Proof.
  intros SE SA HE HA. rewrite !room_string.
  assert (L : (0 < n)%nat) by (pose proof (height_pos _ e); lia).
  destruct (mk_spec (R A) show near pat score gt floor sim n cl 0 false (Some (O, ([], e))) (Some (O, ([], a)))) as ((LO & _) & (RO & _) & C); [split; [apply (showable_whole A show); exact SE|exact HE]|split; [apply (showable_whole A show); exact SA|exact HA]|exact L|].
  cbn [fst snd] in *. unfold diff. destruct n as [|n]; [lia|]. set (d := mk_dual _ _ _ _ _ _ _ _ _ _ _ _ _ _) in *. split; intro S20.
  - pose proof (left_side A show d [] e LO) as So.
    assert (E : sig (fst (align fold d)) = sig (fst (align 0 d))).
    { apply (short_sig fst e_type lfront (fun h => back (e_type h) (e_last h))); [reflexivity|exact l_sel| |exact S20].
      apply (side_tidy fst e_type lfront (fun h => back (e_type h) (e_last h)) l_sel) with (lst := e_last) (A := A) (show := show) (key := e_key) (val := e_value); [intros h H; apply front_absent; exact H|intros h H; rewrite H; reflexivity|apply e_good; exact C|right; eauto]. }
    pose proof (side_says A show e_type e_key e_value e_style e_last fst 0 (e_sel 0 (Nat.le_0_l 1)) d [] e (e_good d C) So SE (Forall_nil _)) as S1.
    unfold says in S1. replace (flag e_last d) with true in S1 by reflexivity. cbn [kwords app negb comma] in S1. rewrite app_nil_r in S1. apply (rendered_document A show); [exact SE|]. rewrite <- S1, <- E. apply rendered_shown.
  - destruct (right_side A show d [] a RO) as (a' & RE & So). exists a'. split; [exact RE|]. pose proof (rearranged_showable A show _ _ RE SA) as SA'.
    assert (E : sig (snd (align fold d)) = sig (snd (align 0 d))).
    { apply (short_sig snd a_type rfront (fun h => back (a_type h) (a_last h))); [reflexivity|exact r_sel| |exact S20].
      apply (side_tidy snd a_type rfront (fun h => back (a_type h) (a_last h)) r_sel) with (lst := a_last) (A := A) (show := show) (key := a_key) (val := a_value); [intros h H; apply front_absent; exact H|intros h H; rewrite H; reflexivity|apply a_good; exact C|right; eauto]. }
    pose proof (side_says A show a_type a_key a_value a_style a_last snd 0 (a_sel 0 (Nat.le_0_l 1)) d [] a' (a_good d C) So SA' (Forall_nil _)) as S1.
    unfold says in S1. replace (flag a_last d) with true in S1 by reflexivity. cbn [kwords app negb comma] in S1. rewrite app_nil_r in S1. apply (rendered_document A show); [exact SA'|]. rewrite <- S1, <- E. apply rendered_shown.
Qed.
(** ** equal parts take one line *)
Lemma one_line num show near pat score gt floor sim n cl depth rel fold i k (e : value num) j k' (a : value num) : (2 <= fold)%nat -> fold_str cl k = fold_str cl k' -> meets num near pat cl e a ->
  exists l r, align fold (mk_dual num show near pat score gt floor sim (S n) cl depth rel (Some (i, (k, e))) (Some (j, (k', a)))) = ([l], [r]).
Proof.
  intros F K M. cbn [mk_dual align key_equal value_match okey fst snd]. rewrite (proj2 (key_equal_iff cl k k') K), (proj2 (jmatch_meets num near pat cl e a) M).
  replace (2 <=? fold)%nat with true by (symmetry; apply Nat.leb_le; exact F). cbn [andb orb]. cbn zeta. cbn [side]. unfold samesize. cbn [length Nat.sub repeat app]. eauto.
Qed.
