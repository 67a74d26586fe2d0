(** Printed values are texts of the values. *)
From Coq Require Import List NArith ZArith Bool Arith Lia.
From Verif Require Import Base FilterModel StrModel StrSpec ExprModel ExprSpec ExprProofs2 LineModel JsonModel JsonSpec JsonProofs JsonProofs2 JsonProofs3 PrintModel PrintSpec.
Import ListNotations.
Local Open Scope N_scope.

Ltac flat := repeat (progress (rewrite <- ?app_assoc; cbn [app])).
(** words with white space around them *)
Inductive rendered : list bytes -> bytes -> Prop :=
| R_nil w : ws w -> rendered [] w
| R_word w x xs r : ws w -> rendered xs r -> rendered (x :: xs) (w ++ x ++ r).
Lemma ws_app a b : ws a -> ws b -> ws (a ++ b).
Proof. intros. apply Forall_app; auto. Qed.
Lemma rendered_ws w xs t : ws w -> rendered xs t -> rendered xs (w ++ t).
Proof. intros W R. destruct R as [v V|v x xs r V R]; [constructor; apply ws_app; auto|]. rewrite app_assoc. constructor; auto. apply ws_app; auto. Qed.
Lemma rendered_app xs ys t : rendered (xs ++ ys) t -> exists a b, t = a ++ b /\ rendered xs a /\ rendered ys b.
Proof.
  revert t. induction xs as [|x xs IH]; intros t R; [exists [], t; repeat split; auto; repeat constructor|].
  cbn [app] in R. inversion R as [|w x' xs' r W R']. subst. destruct (IH r R') as (a & b & -> & Ra & Rb). exists (w ++ x ++ a), b. repeat split; auto; [rewrite <- !app_assoc; reflexivity|constructor; auto].
Qed.
Lemma rendered_join xs ys a b : rendered xs a -> rendered ys b -> rendered (xs ++ ys) (a ++ b).
Proof. intros R1 R2. induction R1 as [w W|w x xs r W R IH]; [apply rendered_ws; auto|]. rewrite <- !app_assoc. cbn [app]. constructor; auto. Qed.
Lemma rendered_one x t : rendered [x] t -> exists w1 w2, t = w1 ++ x ++ w2 /\ ws w1 /\ ws w2.
Proof. intro R. inversion R as [|w x' xs' r W R']. subst. inversion R' as [w' W' E1 E2|]. subst. eauto. Qed.
Lemma ws_nil : ws [].
Proof. constructor. Qed.
#[local] Hint Resolve ws_nil ws_app : wsd.

(** fine words *)
Definition kwords (k : bytes) : list bytes := match k with [] => [] | _ => [[34] ++ k ++ [34]; str ": "] end.
Definition comma (more : bool) : list bytes := if more then [str ", "] else [].
Definition following {X} (r : list X) : bool := match r with [] => false | _ => true end.
Fixpoint vwords {num} (show : num -> bytes) (v : value num) : list bytes :=
  match v with
  | Arr l => [str "["] ++ (fix go (l : list (value num)) := match l with [] => [] | x :: r => vwords show x ++ comma (following r) ++ go r end) l ++ [str "]"]
  | Obj l => [str "{"] ++ (fix go (l : list (bytes * value num)) := match l with [] => [] | (k, x) :: r => kwords k ++ vwords show x ++ comma (following r) ++ go r end) l ++ [str "}"]
  | _ => [format_value show [34] v]
  end.
Definition iwords {num} (show : num -> bytes) := fix go (l : list (value num)) : list bytes := match l with [] => [] | x :: r => vwords show x ++ comma (following r) ++ go r end.
Definition mwords {num} (show : num -> bytes) := fix go (l : list (bytes * value num)) : list bytes := match l with [] => [] | (k, x) :: r => kwords k ++ vwords show x ++ comma (following r) ++ go r end.
Lemma vwords_arr {num} show (l : list (value num)) : vwords show (Arr l) = [str "["] ++ iwords show l ++ [str "]"].
Proof. reflexivity. Qed.
Lemma vwords_obj {num} show (l : list (bytes * value num)) : vwords show (Obj l) = [str "{"] ++ mwords show l ++ [str "}"].
Proof. reflexivity. Qed.

Lemma iwords_cons {num} show (x : value num) r : iwords show (x :: r) = vwords show x ++ comma (following r) ++ iwords show r.
Proof. reflexivity. Qed.
Lemma mwords_cons {num} show k (x : value num) r : mwords show ((k, x) :: r) = kwords k ++ vwords show x ++ comma (following r) ++ mwords show r.
Proof. reflexivity. Qed.
Section Show.
Variable A : alg.
Variable show : R A -> bytes.
Lemma plain_quoted s : Forall (fun c => c <> 0 /\ c <> 34 /\ c <> 92) s -> quoted_text s ([34] ++ s ++ [34]).
Proof.
  intro F. exists 34, (map Plain s). split; [auto|]. assert (W : StrSpec.written (map Plain s) = s).
  { clear F. induction s as [|c s IH]; [reflexivity|]. cbn [map]. change (StrSpec.written (Plain c :: map Plain s)) with (c :: StrSpec.written (map Plain s)). rewrite IH. reflexivity. }
  rewrite W. split; [reflexivity|]. split.
  - clear W. induction F as [|c s (H1 & H2 & H3) F IH]; constructor; auto.
  - clear W. induction F as [|c s (H1 & H2 & H3) F IH]; constructor; auto.
Qed.
Lemma rendered_value v : showable A show v -> forall t, rendered (vwords show v) t -> exists w1 t' w2, t = w1 ++ t' ++ w2 /\ ws w1 /\ ws w2 /\ jtext A v t'.
Proof.
  induction v as [| |b|x|s|s|l IH|l IH] using value_deep; intros SH t R; inversion SH; subst.
  - apply rendered_one in R. destruct R as (w1 & w2 & -> & W1 & W2). exists w1, (str "null"), w2. repeat split; auto. constructor.
  - apply rendered_one in R. destruct R as (w1 & w2 & -> & W1 & W2). exists w1, (if b then str "true" else str "false"), w2. repeat split; auto. destruct b; constructor.
  - apply rendered_one in R. destruct R as (w1 & w2 & -> & W1 & W2). exists w1, (show x), w2. repeat split; auto. constructor. apply json_number_text. assumption.
  - apply rendered_one in R. destruct R as (w1 & w2 & -> & W1 & W2). exists w1, ([34] ++ s ++ [34]), w2. repeat split; auto. constructor. apply plain_quoted. assumption.
  - apply rendered_one in R. destruct R as (w1 & w2 & -> & W1 & W2). exists w1, (47 :: s ++ [47]), w2. repeat split; auto. constructor. assumption.
  - rewrite vwords_arr in R. rename H0 into F.
    assert (Q : l <> [] -> forall t, rendered (iwords show l) t -> jitems A l t).
    { clear R SH t. induction IH as [|v l Hv IHF IHl]; [congruence|]. intros _ t R. rewrite iwords_cons in R. apply rendered_app in R. destruct R as (a & b & -> & Ra & Rb).
      apply Hv in Ra; [|apply Forall_inv in F; exact F]. destruct Ra as (w1 & t' & w2 & -> & W1 & W2 & T).
      destruct l as [|v2 l].
      - cbn [following comma iwords app] in Rb. inversion Rb as [w W E1 E2|]. subst. rewrite <- !app_assoc. apply I_last; auto with wsd.
      - cbn [following comma app] in Rb. inversion Rb as [|w x xs r W Rr]. subst. rewrite <- !app_assoc.
        change (str ", " ++ r) with (44 :: ([32] ++ r)). rewrite (app_assoc w2 w). apply I_more; auto with wsd. apply IHl; [apply Forall_inv_tail in F; exact F|discriminate|].
        apply rendered_ws; [constructor; [left; reflexivity|constructor]|exact Rr]. }
    cbn [app] in R. inversion R as [|w x xs r W Rr]. subst. apply rendered_app in Rr. destruct Rr as (a & b & -> & Ra & Rb). apply rendered_one in Rb. destruct Rb as (w3 & w4 & -> & W3 & W4).
    destruct l as [|v l].
    + cbn [iwords] in Ra. inversion Ra as [w' W' E1 E2|]. subst. exists w, (91 :: (a ++ w3) ++ [93]), w4. split; [|split; [auto|split; [auto|apply T_empty_arr; auto with wsd]]].
      change (str "[") with [91]. change (str "]") with [93]. flat. reflexivity.
    + exists w, (91 :: (a ++ w3) ++ [93]), w4. split; [|split; [auto|split; [auto|apply T_arr]]].
      * change (str "[") with [91]. change (str "]") with [93]. flat. reflexivity.
      * apply Q; [discriminate|]. replace (iwords show (v :: l)) with (iwords show (v :: l) ++ []) by apply app_nil_r. apply rendered_join; [exact Ra|constructor; auto].
  - rewrite vwords_obj in R. rename H0 into F.
    assert (Q : l <> [] -> forall t, rendered (mwords show l) t -> jmembers A l t).
    { clear R SH t. induction IH as [|(k, v) l Hv IHF IHl]; [congruence|]. intros _ t R. rewrite mwords_cons in R. apply rendered_app in R. destruct R as (kt & c & -> & Rk & R).
      apply rendered_app in R. destruct R as (a & b & -> & Ra & Rb). destruct (Forall_inv F) as (NK & FK & SV). cbn [fst snd] in *.
      apply Hv in Ra; [|exact SV]. destruct Ra as (w1 & t' & w2 & -> & W1 & W2 & T).
      assert (KT : exists v1 v2 v3, kt = v1 ++ ([34] ++ k ++ [34]) ++ v2 ++ 58 :: v3 /\ ws v1 /\ ws v2 /\ ws v3).
      { unfold kwords in Rk. destruct k as [|k0 k1]; [congruence|]. inversion Rk as [|v1 x xs r V1 Rr]. subst. apply rendered_one in Rr. destruct Rr as (v2 & v3 & -> & V2 & V3).
        exists v1, v2, (32 :: v3). repeat split; auto. constructor; [left; reflexivity|exact V3]. }
      destruct KT as (v1 & v2 & v3 & -> & V1 & V2 & V3).
      destruct l as [|v4 l].
      - cbn [following comma mwords app] in Rb. inversion Rb as [w W E1 E2|]. subst.
        replace ((v1 ++ ([34] ++ k ++ [34]) ++ v2 ++ 58 :: v3) ++ (w1 ++ t' ++ w2) ++ b) with (v1 ++ ([34] ++ k ++ [34]) ++ v2 ++ 58 :: (v3 ++ w1) ++ t' ++ (w2 ++ b)).
        + apply M_last; auto with wsd. apply plain_quoted; exact FK.
        + flat. reflexivity.
      - cbn [following comma app] in Rb. inversion Rb as [|w x xs r W Rr]. subst.
        replace ((v1 ++ ([34] ++ k ++ [34]) ++ v2 ++ 58 :: v3) ++ (w1 ++ t' ++ w2) ++ w ++ str ", " ++ r) with (v1 ++ ([34] ++ k ++ [34]) ++ v2 ++ 58 :: (v3 ++ w1) ++ t' ++ (w2 ++ w) ++ 44 :: ([32] ++ r)).
        + apply M_more; auto with wsd; [apply plain_quoted; exact FK|]. apply IHl; [apply Forall_inv_tail in F; exact F|discriminate|].
          apply rendered_ws; [constructor; [left; reflexivity|constructor]|exact Rr].
        + change (str ", " ++ r) with (44 :: 32 :: r). flat. reflexivity. }
    cbn [app] in R. inversion R as [|w x xs r W Rr]. subst. apply rendered_app in Rr. destruct Rr as (a & b & -> & Ra & Rb). apply rendered_one in Rb. destruct Rb as (w3 & w4 & -> & W3 & W4).
    destruct l as [|v l].
    + cbn [mwords] in Ra. inversion Ra as [w' W' E1 E2|]. subst. exists w, (123 :: (a ++ w3) ++ [125]), w4. split; [|split; [auto|split; [auto|apply T_empty_obj; auto with wsd]]].
      change (str "{") with [123]. change (str "}") with [125]. flat. reflexivity.
    + exists w, (123 :: (a ++ w3) ++ [125]), w4. split; [|split; [auto|split; [auto|apply T_obj]]].
      * change (str "{") with [123]. change (str "}") with [125]. flat. reflexivity.
      * apply Q; [discriminate|]. replace (mwords show (v :: l)) with (mwords show (v :: l) ++ []) by apply app_nil_r. apply rendered_join; [exact Ra|constructor; auto].
Qed.
Lemma rendered_document v t : showable A show v -> rendered (vwords show v) t -> document A v t.
Proof. intros SH R. destruct (rendered_value v SH t R) as (w1 & t' & w2 & -> & W1 & W2 & T). exists w1, t', w2. auto. Qed.
End Show.

(** ** significant words of lines *)
Definition signif (w : bytes) : bool := negb (blank_word w) && negb (isctrl w).
Definition sig (ls : list line) : list bytes := filter signif (concat ls).
Lemma sig_app a b : sig (a ++ b) = sig a ++ sig b.
Proof. unfold sig. rewrite concat_app, filter_app. reflexivity. Qed.
Lemma sig_one l : sig [l] = filter signif l.
Proof. unfold sig. cbn [concat]. rewrite app_nil_r. reflexivity. Qed.
Lemma sig_folds ls : filter signif (folds ls) = sig ls.
Proof.
  unfold folds, sig. induction (concat ls) as [|w l IH]; [reflexivity|]. cbn [filter]. unfold signif at 2. destruct (blank_word w) eqn:B; cbn [negb andb].
  - exact IH.
  - cbn [filter]. rewrite IH. unfold signif at 1. rewrite B. reflexivity.
Qed.
Lemma blank_ws w : blank_word w = true -> ws w.
Proof. unfold blank_word. rewrite forallb_forall. intro H. apply Forall_forall. intros c I. apply sp_b. apply H. exact I. Qed.
Lemma repeat_blank n : blank_word (repeat 32 n) = true.
Proof. induction n; [reflexivity|exact IHn]. Qed.
Lemma sig_indent n : filter signif (indent ([] : line) n) = [].
Proof. unfold indent. destruct (n =? 0)%nat; [reflexivity|]. cbn [filter]. unfold signif. rewrite repeat_blank. reflexivity. Qed.
(** the readings of lines *)
Lemma rendered_line l : rendered (filter signif l) (text l).
Proof.
  induction l as [|w l IH]; [repeat constructor|]. unfold text in *. cbn [filter]. unfold signif at 1. destruct (isctrl w) eqn:C; cbn [negb].
  - rewrite andb_false_r. exact IH.
  - rewrite andb_true_r. cbn [concat]. destruct (blank_word w) eqn:B; cbn [negb]; [apply rendered_ws; [apply blank_ws; exact B|exact IH]|].
    apply (R_word [] w _ _ ws_nil). exact IH.
Qed.
Lemma rendered_shown ls : rendered (sig ls) (shown ls).
Proof.
  induction ls as [|l ls IH]; [repeat constructor|]. unfold sig, shown in *. cbn [concat map]. rewrite filter_app. apply rendered_join; [|exact IH].
  replace (filter signif l) with (filter signif l ++ []) by apply app_nil_r. apply rendered_join; [apply rendered_line|]. constructor. constructor; [right; lia|constructor].
Qed.
Lemma rendered_string ls : rendered (sig ls) (lines_string ls).
Proof. unfold lines_string. fold signif. fold (sig ls). induction (sig ls) as [|x xs IH]; [repeat constructor|]. apply (R_word [] x _ _ ws_nil). exact IH. Qed.

(** ** format *)
Inductive finer : list bytes -> list bytes -> Prop :=
| Fi_nil : finer [] []
| Fi_same x xs ys : finer xs ys -> finer (x :: xs) (x :: ys)
| Fi_split a b xs ys : finer xs ys -> finer ((a ++ b) :: xs) (a :: b :: ys).
Lemma finer_refl xs : finer xs xs.
Proof. induction xs; constructor; auto. Qed.
Lemma finer_app a b c d : finer a b -> finer c d -> finer (a ++ c) (b ++ d).
Proof. intros H K. induction H; cbn [app]; [auto|constructor; auto|constructor; auto]. Qed.
Lemma finer_rendered a b t : finer a b -> rendered a t -> rendered b t.
Proof.
  intro F. revert t. induction F as [|x xs ys F IH|x y xs ys F IH]; intros t R; [exact R| |].
  - inversion R as [|w x' xs' r W R']. subst. constructor; auto.
  - inversion R as [|w x' xs' r W R']. subst. rewrite <- app_assoc. constructor; auto. apply (R_word [] y _ _ ws_nil). auto.
Qed.
Definition visible (w : bytes) : Prop := signif w = true.
Lemma visible_head c r : ~ sp c -> c <> 27 -> visible (c :: r).
Proof.
  intros S N. unfold visible, signif, blank_word. cbn [forallb]. apply sp_nb in S. rewrite S. cbn [negb andb].
  destruct c as [|c]; [reflexivity|]. unfold isctrl. repeat (destruct c as [c|c|]; try reflexivity). congruence.
Qed.
Section Format.
Variable A : alg.
Variable show : R A -> bytes.
Lemma number_visible x s : json_number A x s -> visible s.
Proof.
  intros (d & D & [[-> _]|[-> _]]); [|apply visible_head; [unfold sp; lia|discriminate]].
  destruct (decimal_start d D) as (c & r & -> & H). unfold isdigit in H. apply visible_head; [unfold sp; lia|lia].
Qed.
Lemma scalar_visible v : showable A show v -> container (kind_of v) = false -> visible (format_value show [34] v).
Proof.
  intros SH. destruct SH; cbn [kind_of container]; intro C; try discriminate; cbn [format_value].
  - reflexivity.
  - destruct b; reflexivity.
  - eapply number_visible; eassumption.
  - apply visible_head; [unfold sp; lia|discriminate].
  - apply (visible_head 47); [unfold sp; lia|discriminate].
Qed.
Definition oneword (o : bytes) : Prop := o = str "[" \/ o = str "]" \/ o = str "{" \/ o = str "}" \/ o = str ", " \/ o = str ": ".
Lemma oneword_sig o r : oneword o -> filter signif (o :: r) = o :: filter signif r.
Proof. intros [-> |[-> |[-> |[-> |[-> | ->]]]]]; reflexivity. Qed.
Lemma sig_comma (more : bool) : filter signif (if more then [str ", "] else []) = comma more.
Proof. destruct more; reflexivity. Qed.
Lemma filter_visible w r : visible w -> filter signif (w :: r) = w :: filter signif r.
Proof. intro V. cbn [filter]. rewrite V. reflexivity. Qed.
Lemma format_sig fold v : showable A show v -> forall depth more k, Forall (fun c => c <> 0 /\ c <> 34 /\ c <> 92) k ->
  finer (sig (format show fold [34] depth more k v)) (kwords k ++ vwords show v ++ comma more).
Proof.
  intro SH. assert (KEY : forall (depth : nat) (k : bytes), finer (filter signif (indent ([] : line) (depth * 2) ++ match k with [] => [] | _ => [[34] ++ k ++ [34] ++ str ": "] end)) (kwords k)).
  { intros depth k. rewrite filter_app, sig_indent. destruct k as [|c k]; [constructor|]. cbn [app]. rewrite filter_visible by (apply visible_head; [unfold sp; lia|discriminate]). cbn [filter].
    change (34 :: c :: k ++ 34 :: str ": ") with (([34] ++ (c :: k) ++ [34 ; 58; 32])). replace ([34] ++ (c :: k) ++ [34; 58; 32]) with (([34] ++ (c :: k) ++ [34]) ++ str ": ") by (cbn [app]; rewrite <- app_assoc; reflexivity).
    apply Fi_split. constructor. }
  assert (BODY : forall (depth : nat) (more : bool) (k o c : bytes) (cs : list line) (inner : list bytes), oneword o -> oneword c -> finer (sig cs) inner ->
    finer (sig (if fold && foldable cs then [(indent ([] : line) (depth * 2) ++ match k with [] => [] | _ => [[34] ++ k ++ [34] ++ str ": "] end) ++ [o] ++ folds cs ++ [c] ++ (if more then [str ", "] else [])]
                else [(indent ([] : line) (depth * 2) ++ match k with [] => [] | _ => [[34] ++ k ++ [34] ++ str ": "] end) ++ [o]] ++ cs ++ [indent ([] : line) (depth * 2) ++ [c] ++ (if more then [str ", "] else [])]))
          (kwords k ++ ([o] ++ inner ++ [c]) ++ comma more)).
  { intros depth more k o c cs inner O C F. specialize (KEY depth k). remember (indent ([] : line) (depth * 2) ++ match k with [] => [] | _ => [[34] ++ k ++ [34] ++ str ": "] end) as L eqn:EL. clear EL. destruct (fold && foldable cs).
    - rewrite sig_one, filter_app. apply finer_app; [apply KEY|]. cbn [app]. rewrite oneword_sig by exact O. rewrite <- app_assoc. constructor. rewrite filter_app, sig_folds. apply finer_app; [exact F|].
      rewrite oneword_sig by exact C. rewrite sig_comma. apply finer_refl.
    - rewrite !sig_app, !sig_one, !filter_app, sig_indent. rewrite (oneword_sig o []) by exact O. rewrite (oneword_sig c []) by exact C. rewrite sig_comma. cbn [filter].
      rewrite <- !app_assoc. apply finer_app; [apply KEY|]. cbn [app]. constructor. apply finer_app; [exact F|apply finer_refl]. }
  assert (SCAL : forall (depth : nat) (more : bool) (k w : bytes), visible w -> finer (sig [(indent ([] : line) (depth * 2) ++ match k with [] => [] | _ => [[34] ++ k ++ [34] ++ str ": "] end) ++ [w] ++ (if more then [str ", "] else [])]) (kwords k ++ [w] ++ comma more)).
  { intros depth more k w V. rewrite sig_one, filter_app. apply finer_app; [apply KEY|]. cbn [app]. rewrite filter_visible by exact V. rewrite sig_comma. apply finer_refl. }
  induction v as [| |b|x|s|s|l IH|l IH] using value_deep; intros depth more k FK; try (inversion SH; fail);
    try (apply SCAL; apply (scalar_visible _ SH); reflexivity).
  - inversion SH as [| | | | |l0 F|]; subst. rewrite vwords_arr. cbn [format]. apply BODY; [unfold oneword; auto|unfold oneword; auto|].
    clear SH. induction IH as [|v l Hv IHF IHl]; [constructor|]. rewrite iwords_cons. rewrite sig_app, app_assoc. apply finer_app.
    + specialize (Hv (Forall_inv F) (S depth) (following l) [] (Forall_nil _)). exact Hv.
    + apply IHl. apply Forall_inv_tail in F. exact F.
  - inversion SH as [| | | | | |l0 F]; subst. rewrite vwords_obj. cbn [format]. apply BODY; [unfold oneword; auto|unfold oneword; auto|].
    clear SH. induction IH as [|(k', v) l Hv IHF IHl]; [constructor|]. destruct (Forall_inv F) as (NK & FK' & SV). cbn [fst snd] in *. rewrite mwords_cons, sig_app. rewrite (app_assoc (vwords show v)), (app_assoc (kwords k')). apply finer_app.
    + specialize (Hv SV (S depth) (following l) k' FK'). exact Hv.
    + apply IHl. apply Forall_inv_tail in F. exact F.
Qed.
Lemma format_shown fold v : showable A show v -> document A v (shown (format show fold [34] 0 false [] v)).
Proof.
  intro SH. apply (rendered_document A show); [exact SH|]. pose proof (format_sig fold v SH 0%nat false [] (Forall_nil _)) as F. cbn [kwords comma app] in F. rewrite app_nil_r in F.
  eapply finer_rendered; [exact F|]. apply rendered_shown.
Qed.
Lemma select_document fold v : showable A show v -> document A v (select_text show fold v).
Proof.
  intro SH. apply (rendered_document A show); [exact SH|]. pose proof (format_sig fold v SH 0%nat false [] (Forall_nil _)) as F. cbn [kwords comma app] in F. rewrite app_nil_r in F.
  eapply finer_rendered; [exact F|]. apply rendered_string.
Qed.
Lemma select_parses fold v : showable A show v -> tree_of (evaluate A) (select_text show fold v) = Done v [].
Proof. intro SH. apply tree_of_document. apply select_document. exact SH. Qed.
End Format.
