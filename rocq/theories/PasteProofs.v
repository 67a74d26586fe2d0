(** Proofs about JSON printed for pasting: the literal. *)
From Coq Require Import List NArith ZArith Bool Arith Lia.
From Verif Require Import Base FilterModel StrModel StrSpec ExprModel ExprSpec ExprProofs2 LineModel JsonModel JsonSpec JsonProofs JsonProofs2 JsonProofs3 PrintModel PrintSpec PrintProofs PasteModel PasteSpec.
Import ListNotations.
Local Open Scope N_scope.

(** ** words as they stand in the source and as they are read *)
Inductive spelt : bytes -> bytes -> Prop :=
| Sp_nil : spelt [] []
| Sp_char c s t : c <> 34 -> c <> 92 -> c <> 10 -> spelt s t -> spelt (c :: s) (c :: t)
| Sp_quote s t : spelt s t -> spelt (92 :: 34 :: s) (34 :: t).
Lemma spelt_app a a' b b' : spelt a a' -> spelt b b' -> spelt (a ++ b) (a' ++ b').
Proof. intros H K. induction H; cbn [app]; [exact K|constructor; auto|constructor; auto]. Qed.
Lemma spelt_same s : Forall (fun c => c <> 34 /\ c <> 92 /\ c <> 10) s -> spelt s s.
Proof. induction 1 as [|c s (H1 & H2 & H3) F IH]; constructor; auto. Qed.
Lemma spelt_spaces n : spelt (repeat 32 n) (repeat 32 n).
Proof. induction n; cbn [repeat]; constructor; auto; discriminate. Qed.
Lemma splice_cons c r : c <> 92 -> splice (c :: r) = c :: splice r.
Proof. intro H. apply N.eqb_neq in H. destruct r; cbn [splice]; [reflexivity|]. rewrite H. reflexivity. Qed.
Lemma splice_spelt s t r : spelt s t -> splice (s ++ r) = s ++ splice r.
Proof.
  induction 1 as [|c s t H1 H2 H3 S IH|s t S IH]; [reflexivity| |].
  - cbn [app]. rewrite splice_cons by exact H2. rewrite IH. reflexivity.
  - cbn [app]. change (splice (92 :: 34 :: s ++ r)) with (92 :: splice (34 :: s ++ r)). rewrite splice_cons by discriminate. rewrite IH. reflexivity.
Qed.
Lemma chars_spelt s t r : spelt s t -> chars (s ++ 34 :: r) = Some (t, r).
Proof.
  induction 1 as [|c s t H1 H2 H3 S IH|s t S IH]; [reflexivity| |].
  - apply N.eqb_neq in H1, H2, H3. cbn [app chars]. rewrite H1, H2, H3, IH. reflexivity.
  - cbn [app]. change (chars (92 :: 34 :: s ++ 34 :: r)) with (match chars (s ++ 34 :: r) with Some (t, k) => Some (34 :: t, k) | None => None end). rewrite IH. reflexivity.
Qed.
Definition word_ok (w w' : bytes) : Prop := spelt w w' /\ isctrl w = false /\ isctrl w' = false.
Lemma spelt_blank w w' : spelt w w' -> blank_word w = blank_word w'.
Proof. unfold blank_word. induction 1; [reflexivity| |reflexivity]. cbn [forallb]. rewrite IHspelt. reflexivity. Qed.
Lemma spelt_text l l' : Forall2 word_ok l l' -> spelt (text l) (text l').
Proof.
  unfold text. induction 1 as [|w w' l l' (H & C & C') F IH]; [constructor|]. cbn [filter]. rewrite C, C'. cbn [negb concat]. apply spelt_app; assumption.
Qed.
Lemma ok_spaces n : word_ok (repeat 32 n) (repeat 32 n).
Proof. split; [apply spelt_spaces|]. destruct n; split; reflexivity. Qed.
Lemma ok_indent n : Forall2 word_ok (indent ([] : line) n) (indent ([] : line) n).
Proof. unfold indent. destruct (n =? 0)%nat; constructor; [apply ok_spaces|constructor]. Qed.
Lemma text_app (a b : line) : text (a ++ b) = text a ++ text b.
Proof. unfold text. rewrite filter_app, concat_app. reflexivity. Qed.
Lemma ok_folds cs cs' : Forall2 (Forall2 word_ok) cs cs' -> Forall2 word_ok (folds cs) (folds cs').
Proof.
  intro H. unfold folds. assert (F : Forall2 word_ok (concat cs) (concat cs')) by (induction H; cbn [concat]; [constructor|apply Forall2_app; assumption]).
  clear H. induction F as [|w w' l l' (H & C) F IH]; [constructor|]. cbn [filter]. rewrite (spelt_blank _ _ H). destruct (blank_word w'); cbn [negb]; [exact IH|]. constructor; [split; assumption|exact IH].
Qed.

(** ** the words of a value with quotes [qd] *)
Section Quote.
Variable qd : byte.
Definition kwordsq (k : bytes) : list bytes := match k with [] => [] | _ => [[qd] ++ k ++ [qd]; str ": "] end.
Fixpoint vwordsq {num} (show : num -> bytes) (v : value num) : list bytes :=
  match v with
  | Arr l => [str "["] ++ (fix go (l : list (value num)) := match l with [] => [] | x :: r => vwordsq show x ++ comma (following r) ++ go r end) l ++ [str "]"]
  | Obj l => [str "{"] ++ (fix go (l : list (bytes * value num)) := match l with [] => [] | (k, x) :: r => kwordsq k ++ vwordsq show x ++ comma (following r) ++ go r end) l ++ [str "}"]
  | _ => [format_value show [qd] v]
  end.
Definition iwordsq {num} (show : num -> bytes) := fix go (l : list (value num)) : list bytes := match l with [] => [] | x :: r => vwordsq show x ++ comma (following r) ++ go r end.
Definition mwordsq {num} (show : num -> bytes) := fix go (l : list (bytes * value num)) : list bytes := match l with [] => [] | (k, x) :: r => kwordsq k ++ vwordsq show x ++ comma (following r) ++ go r end.
Lemma vwordsq_arr {num} show (l : list (value num)) : vwordsq show (Arr l) = [str "["] ++ iwordsq show l ++ [str "]"].
Proof. reflexivity. Qed.
Lemma vwordsq_obj {num} show (l : list (bytes * value num)) : vwordsq show (Obj l) = [str "{"] ++ mwordsq show l ++ [str "}"].
Proof. reflexivity. Qed.
Lemma iwordsq_cons {num} show (x : value num) r : iwordsq show (x :: r) = vwordsq show x ++ comma (following r) ++ iwordsq show r.
Proof. reflexivity. Qed.
Lemma mwordsq_cons {num} show k (x : value num) r : mwordsq show ((k, x) :: r) = kwordsq k ++ vwordsq show x ++ comma (following r) ++ mwordsq show r.
Proof. reflexivity. Qed.
Variable A : alg.
Variable show : R A -> bytes.
Hypothesis quote : qd = 34 \/ qd = 39.
Lemma plain_quotedq s : Forall (plain qd) s -> quoted_text s ([qd] ++ s ++ [qd]).
Proof.
  intro F. exists qd, (map Plain s). split; [exact quote|]. assert (W : StrSpec.written (map Plain s) = s).
  { clear F. induction s as [|c s IH]; [reflexivity|]. cbn [map]. change (StrSpec.written (Plain c :: map Plain s)) with (c :: StrSpec.written (map Plain s)). rewrite IH. reflexivity. }
  rewrite W. split; [reflexivity|]. split.
  - clear W. induction F as [|c s (H1 & H2 & H3 & H4 & H5) F IH]; constructor; auto.
  - clear W. induction F as [|c s (H1 & H2 & H3 & H4 & H5) F IH]; constructor; auto.
Qed.
#[local] Hint Resolve ws_nil ws_app : wsd.
Lemma rendered_valueq v : copyable A show qd v -> forall t, rendered (vwordsq show v) t -> exists w1 t' w2, t = w1 ++ t' ++ w2 /\ ws w1 /\ ws w2 /\ jtext A v t'.
Proof.
  induction v as [| |b|x|s|s|l IH|l IH] using value_deep; intros SH t R; inversion SH; subst.
  - apply rendered_one in R. destruct R as (w1 & w2 & -> & W1 & W2). exists w1, (str "null"), w2. repeat split; auto. constructor.
  - apply rendered_one in R. destruct R as (w1 & w2 & -> & W1 & W2). exists w1, (if b then str "true" else str "false"), w2. repeat split; auto. destruct b; constructor.
  - apply rendered_one in R. destruct R as (w1 & w2 & -> & W1 & W2). exists w1, (show x), w2. repeat split; auto. constructor. apply json_number_text. assumption.
  - apply rendered_one in R. destruct R as (w1 & w2 & -> & W1 & W2). exists w1, ([qd] ++ s ++ [qd]), w2. repeat split; auto. constructor. apply plain_quotedq. assumption.
  - apply rendered_one in R. destruct R as (w1 & w2 & -> & W1 & W2). exists w1, (47 :: s ++ [47]), w2. repeat split; auto. constructor.
    match goal with F : Forall _ _ |- _ => eapply Forall_impl; [|exact F] end. intros c (H1 & _ & _ & _ & H5). auto.
  - rewrite vwordsq_arr in R. rename H0 into F.
    assert (Q : l <> [] -> forall t, rendered (iwordsq show l) t -> jitems A l t).
    { clear R SH t. induction IH as [|v l Hv IHF IHl]; [congruence|]. intros _ t R. rewrite iwordsq_cons in R. apply rendered_app in R. destruct R as (a & b & -> & Ra & Rb).
      apply Hv in Ra; [|apply Forall_inv in F; exact F]. destruct Ra as (w1 & t' & w2 & -> & W1 & W2 & T).
      destruct l as [|v2 l].
      - cbn [following comma iwordsq app] in Rb. inversion Rb as [w W E1 E2|]. subst. rewrite <- !app_assoc. apply I_last; auto with wsd.
      - cbn [following comma app] in Rb. inversion Rb as [|w x xs r W Rr]. subst. rewrite <- !app_assoc.
        change (str ", " ++ r) with (44 :: ([32] ++ r)). rewrite (app_assoc w2 w). apply I_more; auto with wsd. apply IHl; [apply Forall_inv_tail in F; exact F|discriminate|].
        apply rendered_ws; [constructor; [left; reflexivity|constructor]|exact Rr]. }
    cbn [app] in R. inversion R as [|w x xs r W Rr]. subst. apply rendered_app in Rr. destruct Rr as (a & b & -> & Ra & Rb). apply rendered_one in Rb. destruct Rb as (w3 & w4 & -> & W3 & W4).
    destruct l as [|v l].
    + cbn [iwordsq] in Ra. inversion Ra as [w' W' E1 E2|]. subst. exists w, (91 :: (a ++ w3) ++ [93]), w4. split; [|split; [auto|split; [auto|apply T_empty_arr; auto with wsd]]].
      change (str "[") with [91]. change (str "]") with [93]. flat. reflexivity.
    + exists w, (91 :: (a ++ w3) ++ [93]), w4. split; [|split; [auto|split; [auto|apply T_arr]]].
      * change (str "[") with [91]. change (str "]") with [93]. flat. reflexivity.
      * apply Q; [discriminate|]. replace (iwordsq show (v :: l)) with (iwordsq show (v :: l) ++ []) by apply app_nil_r. apply rendered_join; [exact Ra|constructor; auto].
  - rewrite vwordsq_obj in R. rename H0 into F.
    assert (Q : l <> [] -> forall t, rendered (mwordsq show l) t -> jmembers A l t).
    { clear R SH t. induction IH as [|(k, v) l Hv IHF IHl]; [congruence|]. intros _ t R. rewrite mwordsq_cons in R. apply rendered_app in R. destruct R as (kt & c & -> & Rk & R).
      apply rendered_app in R. destruct R as (a & b & -> & Ra & Rb). destruct (Forall_inv F) as (NK & FK & SV). cbn [fst snd] in *.
      apply Hv in Ra; [|exact SV]. destruct Ra as (w1 & t' & w2 & -> & W1 & W2 & T).
      assert (KT : exists v1 v2 v3, kt = v1 ++ ([qd] ++ k ++ [qd]) ++ v2 ++ 58 :: v3 /\ ws v1 /\ ws v2 /\ ws v3).
      { unfold kwordsq in Rk. destruct k as [|k0 k1]; [congruence|]. inversion Rk as [|v1 x xs r V1 Rr]. subst. apply rendered_one in Rr. destruct Rr as (v2 & v3 & -> & V2 & V3).
        exists v1, v2, (32 :: v3). repeat split; auto. constructor; [left; reflexivity|exact V3]. }
      destruct KT as (v1 & v2 & v3 & -> & V1 & V2 & V3).
      destruct l as [|v4 l].
      - cbn [following comma mwordsq app] in Rb. inversion Rb as [w W E1 E2|]. subst.
        replace ((v1 ++ ([qd] ++ k ++ [qd]) ++ v2 ++ 58 :: v3) ++ (w1 ++ t' ++ w2) ++ b) with (v1 ++ ([qd] ++ k ++ [qd]) ++ v2 ++ 58 :: (v3 ++ w1) ++ t' ++ (w2 ++ b)).
        + apply M_last; auto with wsd. apply plain_quotedq; exact FK.
        + flat. reflexivity.
      - cbn [following comma app] in Rb. inversion Rb as [|w x xs r W Rr]. subst.
        replace ((v1 ++ ([qd] ++ k ++ [qd]) ++ v2 ++ 58 :: v3) ++ (w1 ++ t' ++ w2) ++ w ++ str ", " ++ r) with (v1 ++ ([qd] ++ k ++ [qd]) ++ v2 ++ 58 :: (v3 ++ w1) ++ t' ++ (w2 ++ w) ++ 44 :: ([32] ++ r)).
        + apply M_more; auto with wsd; [apply plain_quotedq; exact FK|]. apply IHl; [apply Forall_inv_tail in F; exact F|discriminate|].
          apply rendered_ws; [constructor; [left; reflexivity|constructor]|exact Rr].
        + change (str ", " ++ r) with (44 :: 32 :: r). flat. reflexivity. }
    cbn [app] in R. inversion R as [|w x xs r W Rr]. subst. apply rendered_app in Rr. destruct Rr as (a & b & -> & Ra & Rb). apply rendered_one in Rb. destruct Rb as (w3 & w4 & -> & W3 & W4).
    destruct l as [|v l].
    + cbn [mwordsq] in Ra. inversion Ra as [w' W' E1 E2|]. subst. exists w, (123 :: (a ++ w3) ++ [125]), w4. split; [|split; [auto|split; [auto|apply T_empty_obj; auto with wsd]]].
      change (str "{") with [123]. change (str "}") with [125]. flat. reflexivity.
    + exists w, (123 :: (a ++ w3) ++ [125]), w4. split; [|split; [auto|split; [auto|apply T_obj]]].
      * change (str "{") with [123]. change (str "}") with [125]. flat. reflexivity.
      * apply Q; [discriminate|]. replace (mwordsq show (v :: l)) with (mwordsq show (v :: l) ++ []) by apply app_nil_r. apply rendered_join; [exact Ra|constructor; auto].
Qed.
Lemma rendered_documentq v t : copyable A show qd v -> rendered (vwordsq show v) t -> document A v t.
Proof. intros SH R. destruct (rendered_valueq v SH t R) as (w1 & t' & w2 & -> & W1 & W2 & T). exists w1, t', w2. auto. Qed.

(** ** the lines of a value and how they are read *)
Variable q : bytes.
Hypothesis q_ok : literal_quote q qd.
Lemma quoted_spelt s : Forall (plain qd) s -> forall r, Forall (fun c => c <> 34 /\ c <> 92 /\ c <> 10) r -> word_ok (q ++ s ++ q ++ r) ([qd] ++ s ++ [qd] ++ r).
Proof.
  intros F r Fr. assert (S : spelt s s) by (apply spelt_same; eapply Forall_impl; [|exact F]; intros c (H1 & H2 & H3 & H4 & H5); auto).
  assert (Q : spelt q [qd]) by (destruct q_ok as [[-> ->]|[-> ->]]; repeat constructor; discriminate).
  split; [repeat apply spelt_app; auto; apply spelt_same; exact Fr|]. destruct q_ok as [[-> ->]|[-> ->]]; split; reflexivity.
Qed.
Lemma quoted_visible s r : visible ([qd] ++ s ++ [qd] ++ r).
Proof. apply visible_head; [|destruct quote; subst; discriminate]. destruct quote; subst; unfold sp; lia. Qed.
Lemma digits_plain d : Forall digit d -> Forall (fun c => c <> 34 /\ c <> 92 /\ c <> 10) d.
Proof. apply Forall_impl. intros c H. unfold digit in H. lia. Qed.
Lemma number_plain x s : json_number A x s -> Forall (fun c => c <> 34 /\ c <> 92 /\ c <> 10) s.
Proof.
  assert (D : forall d, decimal d -> Forall (fun c => c <> 34 /\ c <> 92 /\ c <> 10) d).
  { intros d (i & f & e & -> & Hi & Hf & He & _). apply Forall_app. split; [apply digits_plain; exact Hi|]. apply Forall_app. split.
    - destruct Hf as [-> |(g & -> & G)]; [constructor|]. constructor; [lia|apply digits_plain; exact G].
    - destruct He as [-> |(m & g & h & -> & M & G & _ & H)]; [constructor|]. constructor; [lia|]. apply Forall_app. split; [|apply digits_plain; exact H].
      destruct G as [-> |[-> | ->]]; repeat constructor; discriminate. }
  intros (d & H & [[-> _]|[-> _]]); [apply D; exact H|]. constructor; [lia|apply D; exact H].
Qed.
Lemma visible_ctrl w : visible w -> isctrl w = false.
Proof. unfold visible, signif. destruct (isctrl w); [rewrite andb_false_r; discriminate|reflexivity]. Qed.
Lemma scalar_spelt v : copyable A show qd v -> container (kind_of v) = false -> word_ok (format_value show q v) (format_value show [qd] v) /\ visible (format_value show [qd] v).
Proof.
  intros SH. destruct SH; cbn [kind_of container]; intro C; try discriminate; cbn [format_value].
  - split; [|reflexivity]. split; [|split; reflexivity]. apply spelt_same. repeat constructor; discriminate.
  - destruct b; (split; [|reflexivity]; split; [|split; reflexivity]; apply spelt_same; repeat constructor; discriminate).
  - pose proof (number_visible A x _ H) as V. split; [|exact V]. split; [apply spelt_same; eapply number_plain; exact H|]. split; apply visible_ctrl; exact V.
  - split; [|apply quoted_visible with (r := [])]. pose proof (quoted_spelt s H [] (Forall_nil _)) as K. rewrite !app_nil_r in K. exact K.
  - split; [|apply (visible_head 47); [unfold sp; lia|discriminate]]. split; [|split; reflexivity]. apply spelt_same. change (str "/" ++ p ++ str "/") with (47 :: p ++ [47]). constructor; [lia|]. apply Forall_app. split; [|repeat constructor; discriminate].
    eapply Forall_impl; [|exact H]. intros c (H1 & H2 & H3 & H4 & H5). auto.
Qed.
Lemma ok_one o : oneword o -> word_ok o o.
Proof. intros [-> |[-> |[-> |[-> |[-> | ->]]]]]; (split; [apply spelt_same; repeat constructor; discriminate|split; reflexivity]). Qed.
Lemma ok_comma (more : bool) : Forall2 word_ok (if more then [str ", "] else []) (if more then [str ", "] else []).
Proof. destruct more; [constructor; [apply ok_one; unfold oneword; auto 7|constructor]|constructor]. Qed.
Lemma format_spelt fold v : copyable A show qd v -> forall depth more k, Forall (plain qd) k ->
  exists ls, Forall2 (Forall2 word_ok) (format show fold q depth more k v) ls /\ finer (sig ls) (kwordsq k ++ vwordsq show v ++ comma more).
Proof.
  intro SH.
  assert (KEY : forall (depth : nat) (k : bytes), Forall (plain qd) k -> exists l, Forall2 word_ok (indent ([] : line) (depth * 2) ++ match k with [] => [] | _ => [q ++ k ++ q ++ str ": "] end) l /\ finer (filter signif l) (kwordsq k)).
  { intros depth k FK. exists (indent ([] : line) (depth * 2) ++ match k with [] => [] | _ => [[qd] ++ k ++ [qd] ++ str ": "] end). split.
    - apply Forall2_app; [apply ok_indent|]. destruct k; [constructor|]. constructor; [|constructor]. apply quoted_spelt; [exact FK|repeat constructor; discriminate].
    - rewrite filter_app, sig_indent. destruct k as [|c k]; [constructor|]. cbn [app]. change (qd :: c :: k ++ qd :: str ": ") with ([qd] ++ (c :: k) ++ [qd] ++ str ": ").
      rewrite filter_visible by apply quoted_visible. cbn [filter]. replace ([qd] ++ (c :: k) ++ [qd] ++ str ": ") with (([qd] ++ (c :: k) ++ [qd]) ++ str ": ") by (rewrite <- !app_assoc; reflexivity). apply Fi_split. constructor. }
  assert (BODY : forall (depth : nat) (more : bool) (k o c : bytes) (cs cs' : list line) (inner : list bytes), Forall (plain qd) k -> oneword o -> oneword c -> Forall2 (Forall2 word_ok) cs cs' -> finer (sig cs') inner ->
    exists ls, Forall2 (Forall2 word_ok) (if fold && foldable cs then [(indent ([] : line) (depth * 2) ++ match k with [] => [] | _ => [q ++ k ++ q ++ str ": "] end) ++ [o] ++ folds cs ++ [c] ++ (if more then [str ", "] else [])]
                else [(indent ([] : line) (depth * 2) ++ match k with [] => [] | _ => [q ++ k ++ q ++ str ": "] end) ++ [o]] ++ cs ++ [indent ([] : line) (depth * 2) ++ [c] ++ (if more then [str ", "] else [])]) ls
      /\ finer (sig ls) (kwordsq k ++ ([o] ++ inner ++ [c]) ++ comma more)).
  { intros depth more k o c cs cs' inner FK O C F2 F. destruct (KEY depth k FK) as (L' & KL & KF). remember (indent ([] : line) (depth * 2) ++ match k with [] => [] | _ => [q ++ k ++ q ++ str ": "] end) as L eqn:EL. clear EL. destruct (fold && foldable cs).
    - exists [L' ++ [o] ++ folds cs' ++ [c] ++ (if more then [str ", "] else [])]. split.
      + constructor; [|constructor]. repeat apply Forall2_app; [exact KL|constructor; [apply ok_one; exact O|constructor]|apply ok_folds; exact F2|constructor; [apply ok_one; exact C|constructor]|apply ok_comma].
      + rewrite sig_one, filter_app. apply finer_app; [exact KF|]. cbn [app]. rewrite oneword_sig by exact O. rewrite <- app_assoc. constructor. rewrite filter_app, sig_folds. apply finer_app; [exact F|].
        rewrite oneword_sig by exact C. rewrite sig_comma. apply finer_refl.
    - exists ([L' ++ [o]] ++ cs' ++ [indent ([] : line) (depth * 2) ++ [c] ++ (if more then [str ", "] else [])]). split.
      + apply Forall2_app; [constructor; [|constructor]; apply Forall2_app; [exact KL|constructor; [apply ok_one; exact O|constructor]]|]. apply Forall2_app; [exact F2|]. constructor; [|constructor].
        repeat apply Forall2_app; [apply ok_indent|constructor; [apply ok_one; exact C|constructor]|apply ok_comma].
      + rewrite !sig_app, !sig_one, !filter_app, sig_indent. rewrite (oneword_sig o []) by exact O. rewrite (oneword_sig c []) by exact C. rewrite sig_comma. cbn [filter].
        rewrite <- !app_assoc. apply finer_app; [exact KF|]. cbn [app]. constructor. apply finer_app; [exact F|apply finer_refl]. }
  assert (SCAL : forall (depth : nat) (more : bool) (k w w' : bytes), Forall (plain qd) k -> word_ok w w' -> visible w' ->
    exists ls, Forall2 (Forall2 word_ok) [(indent ([] : line) (depth * 2) ++ match k with [] => [] | _ => [q ++ k ++ q ++ str ": "] end) ++ [w] ++ (if more then [str ", "] else [])] ls /\ finer (sig ls) (kwordsq k ++ [w'] ++ comma more)).
  { intros depth more k w w' FK OK V. destruct (KEY depth k FK) as (L' & KL & KF). exists [L' ++ [w'] ++ (if more then [str ", "] else [])]. split.
    - constructor; [|constructor]. repeat apply Forall2_app; [exact KL|constructor; [exact OK|constructor]|apply ok_comma].
    - rewrite sig_one, filter_app. apply finer_app; [exact KF|]. cbn [app]. rewrite filter_visible by exact V. rewrite sig_comma. apply finer_refl. }
  induction v as [| |b|x|s|s|l IH|l IH] using value_deep; intros depth more k FK; try (inversion SH; fail);
    try (destruct (scalar_spelt _ SH eq_refl) as [OK V]; exact (SCAL depth more k _ _ FK OK V)).
  - inversion SH as [| | | | |l0 F|]; subst. rewrite vwordsq_arr. cbn [format].
    assert (IN : exists cs, Forall2 (Forall2 word_ok) ((fix go (l : list (value (R A))) := match l with [] => [] | x :: r => format show fold q (S depth) (match r with [] => false | _ => true end) [] x ++ go r end) l) cs /\ finer (sig cs) (iwordsq show l)).
    { clear SH. induction IH as [|v l Hv IHF IHl]; [exists []; split; constructor|]. destruct (IHl (Forall_inv_tail F)) as (cs & C1 & C2).
      destruct (Hv (Forall_inv F) (S depth) (following l) [] (Forall_nil _)) as (ds & D1 & D2). exists (ds ++ cs). split; [apply Forall2_app; [exact D1|exact C1]|].
      rewrite iwordsq_cons, sig_app, app_assoc. apply finer_app; [exact D2|exact C2]. }
    destruct IN as (cs & C1 & C2). exact (BODY depth more k (str "[") (str "]") _ cs _ FK ltac:(unfold oneword; auto 7) ltac:(unfold oneword; auto 7) C1 C2).
  - inversion SH as [| | | | | |l0 F]; subst. rewrite vwordsq_obj. cbn [format].
    assert (IN : exists cs, Forall2 (Forall2 word_ok) ((fix go (l : list (bytes * value (R A))) := match l with [] => [] | (k', x) :: r => format show fold q (S depth) (match r with [] => false | _ => true end) k' x ++ go r end) l) cs /\ finer (sig cs) (mwordsq show l)).
    { clear SH. induction IH as [|(k', v) l Hv IHF IHl]; [exists []; split; constructor|]. destruct (IHl (Forall_inv_tail F)) as (cs & C1 & C2). destruct (Forall_inv F) as (NK & FK' & SV). cbn [fst snd] in *.
      destruct (Hv SV (S depth) (following l) k' FK') as (ds & D1 & D2). exists (ds ++ cs). split; [apply Forall2_app; [exact D1|exact C1]|].
      rewrite mwordsq_cons, sig_app. rewrite (app_assoc (vwordsq show v)), (app_assoc (kwordsq k')). apply finer_app; [exact D2|exact C2]. }
    destruct IN as (cs & C1 & C2). exact (BODY depth more k (str "{") (str "}") _ cs _ FK ltac:(unfold oneword; auto 7) ltac:(unfold oneword; auto 7) C1 C2).
Qed.
End Quote.
