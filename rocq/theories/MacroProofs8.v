(** Proofs about the list macros: a call for each value. *)
From Coq Require Import List NArith Bool Arith Lia.
From Verif Require Import Base MacroModel MacroProofs MacroProofs2 MacroProofs3 MacroProofs4 MacroProofs5 MacroProofs6 MacroProofs7.
Import ListNotations.
Local Open Scope N_scope.
Local Arguments lookup : simpl never.
Local Arguments bytes_eqb : simpl never.

(** unknown parts: 10 and 18 separators, 11 a name, 12 arguments, 30 and 31 others of the caller; 13 and 14 a number and the next;
    15 a list of values, 16 its first and 17 its others *)
Definition kindF (k : nat) : cls :=
  match k with 10%nat | 11%nat => Plain | 15%nat | 17%nat | 18%nat | 22%nat | 24%nat => Inn | _ => Loose end.
(** what one use is: separator, what that becomes, macro, its arguments, what one call becomes *)
Record use := mkuse { u_sep : list stok; u_between : list stok; u_macro : list stok; u_args : list stok; u_out : list stok }.
Definition t_foreach : tok := Eval vm_compute in TId (str "_H2PP_FOREACH") false.
Definition t_foreach2 : tok := Eval vm_compute in TId (str "__H2PP_FOREACH") false.
Definition pendF (u : use) (first : bool) (i : stok) (l : list stok) : list stok :=
  (if first then [R t_foreach] else [R t_foreach2; R TLp; R TRp]) ++ R TLp :: u_sep u ++ R TComma :: u_macro u ++ R TComma :: u_args u ++ R TComma :: i :: R TComma :: l ++ [R TRp].
Definition eqsF (u : use) (zero : bool) : list eqn :=
  [(n_empty, [O 15], [R (number 0)]); (n_empty, [], [R (number 1)]); (n_head, [O 15], [O 16]); (n_tail, [O 15], [O 17]);
   (n_eq, [R (number 0); R TComma; O 13], [R (one_if zero)]); (n_cat2, [R t_inc; R TComma; O 13], [O 14]); (n_unparen, u_sep u, u_between u)].
Definition namesF : list bytes := Eval vm_compute in base ++
  [str "_H2PP_FOREACH"; str "__H2PP_FOREACH"; str "_H2PP_FOREACH_0"; str "_H2PP_FOREACH_1"; str "_H2PP_FOREACH_CALL_MACRO"; str "_H2PP_FOREACH_CALL_MACRO_0"; str "_H2PP_FOREACH_CALL_MACRO_1"; str "H2PP_DEFER";
   str "__H2CASES_Callback"; str "__H2CASES2"; str "__H2CASES_T_Callback"; str "__H2CASES_T2"; str "_H2ForeachMacro"; str "__H2MfpDecay"].
Definition runF (u : use) (zero : bool) (s : list stok) : option (list stok) := sk find kindF (known base (eqsF u zero)) namesF 60 true [] (map ST s).
Definition runE (s : list stok) : option (list stok) := sk find kindF (known base [(n_empty, [], [R (number 1)])]) namesF 60 true [] (map ST s).
Definition endF (u : use) (zero : bool) : list stok := (if zero then [] else u_between u) ++ u_out u ++ pendF u false (O 14) [O 17].
Fixpoint s_walk (U : list bytes) (d : nat) (s : list stok) : bool :=
  match s with
  | [] => Nat.eqb d 0
  | O _ :: r => s_walk U d r
  | R t :: r =>
    match t with
    | TLp => s_walk U (S d) r
    | TRp => match d with Datatypes.O => false | S e => s_walk U e r end
    | TId n false => match find n with Some _ => has n U && s_walk U d r | None => s_walk U d r end
    | _ => s_walk U d r
    end
  end.
Lemma s_walk_ok : forall U v, (forall k, walk true 0 (v k) = Some 0%nat /\ Forall (calm table) (v k)) ->
  forall s d, s_walk U d s = true -> walk true d (flat v s) = Some 0%nat /\ Forall (quiet U) (flat v s).
Proof.
  intros U v Hv. induction s as [|x s IH]; intros d H; [cbn in H; apply Nat.eqb_eq in H; subst; split; [reflexivity|constructor]|].
  destruct x as [t|k].
  - change (flat v (R t :: s)) with (t :: flat v s). cbn [s_walk] in H.
    assert (keep : quiet U t -> s_walk U d s = true -> walk true d (flat v s) = Some 0%nat /\ Forall (quiet U) (t :: flat v s)) by (intros Q K; destruct (IH _ K); auto).
    destruct t as [n [|]|y| | | |y]; cbn [walk]; try (apply keep; [exact I|exact H]).
    + destruct (find n) eqn:F.
      * apply andb_prop in H. destruct H as [H1 H2]. apply keep; [right; apply has_in; exact H1|exact H2].
      * apply keep; [left; rewrite <- find_ok; exact F|exact H].
    + destruct (IH _ H). split; [assumption|constructor; [exact I|assumption]].
    + destruct d; [discriminate|]. destruct (IH _ H). split; [assumption|constructor; [exact I|assumption]].
    + destruct d; apply keep; auto; exact I.
  - change (flat v (O k :: s)) with (v k ++ flat v s). destruct (IH _ H) as [H1 H2]. destruct (Hv k) as [W C]. pose proof (walk_up_true _ _ d W) as Wd. rewrite Nat.add_0_r in Wd.
    split; [rewrite (walk_app _ _ _ _ _ Wd); exact H1|]. apply Forall_app. split; [apply calm_quiets; exact C|exact H2].
Qed.
Lemma quiet_none : forall ts, Forall (quiet []) ts -> Forall (calm table) ts.
Proof. intros ts. apply Forall_impl. intros [n [|]|x| | | |x] Q; try exact I. destruct Q as [Q|[]]. exact Q. Qed.

Definition outer (x : stok) : bool := match x with R _ => true | O k => negb (Nat.leb 13 k && Nat.leb k 17) end.
Definition inner (x : stok) : bool := match x with O 14 | O 15 | O 17 => false | _ => true end.
Definition checkF (u : use) : bool :=
  forallb inner (u_out u) && (
  forallb outer (u_sep u ++ u_macro u ++ u_args u ++ u_between u) && s_walk [] 0 (u_between u) && s_walk [] 0 (u_out u) &&
  forallb (fun first => s_walk namesF 0 (pendF u first (O 13) [O 15]) &&
    forallb (fun zero => gives (runF u zero (pendF u first (O 13) [O 15])) (endF u zero) && gives (runE (pendF u first (O 13) [])) []) [true; false]) [true; false]).

Definition vF (c : nat -> list tok) (i : nat) (vs : list (list tok)) (k : nat) : list tok :=
  match k with
  | 13%nat => [idx i] | 14%nat => [idx (S i)] | 15%nat => commas vs | 16%nat => hd [number 0] vs | 17%nat => commas (tl vs) | _ => c k
  end.
Lemma flat_outer : forall c i vs s, forallb outer s = true -> flat (vF c i vs) s = flat c s.
Proof.
  intros c i vs. induction s as [|x s IH]; intros H; [reflexivity|]. cbn [forallb] in H. apply andb_prop in H. destruct H as [H1 H2].
  change (flat1 (vF c i vs) x ++ flat (vF c i vs) s = flat1 c x ++ flat c s). rewrite IH by exact H2. f_equal. destruct x as [t|k]; [reflexivity|]. cbn [flat1].
  do 18 (destruct k as [|k]; [try reflexivity; discriminate|]). reflexivity.
Qed.
Lemma fits_walk : forall k ts, fits table k ts -> walk true 0 ts = Some 0%nat /\ Forall (calm table) ts.
Proof. intros k ts [C H]. split; [|exact C]. destruct k; [apply walk_true; tauto|apply walk_true; tauto|exact H]. Qed.

Section Foreach.
Variable u : use.
Variable c : nat -> list tok.
Hypothesis u_ok : checkF u = true.
Hypothesis c_ok : forall k, fits table (kindF k) (c k).
Hypothesis sep_ok : Closed base (called n_unparen (flat c (u_sep u))) (flat c (u_between u)).

Lemma vF_ok : forall i vs, Forall value vs -> forall k, fits table (kindF k) (vF c i vs k).
Proof.
  intros i vs Hv k. do 13 (destruct k as [|k]; [apply c_ok|]). destruct k as [|k]; [apply idx_fits|]. destruct k as [|k]; [apply idx_fits|].
  destruct k as [|k]; [apply commas_inn; exact Hv|]. destruct k as [|k]; [cbn [vF kindF]; destruct Hv; [apply number_fits|assumption]|].
  destruct k as [|k]; [cbn [vF kindF]; apply commas_inn; destruct Hv; [constructor|assumption]|]. apply c_ok.
Qed.
Lemma vF_walk : forall i vs, Forall value vs -> forall k, walk true 0 (vF c i vs k) = Some 0%nat /\ Forall (calm table) (vF c i vs k).
Proof. intros i vs H k. eapply fits_walk. apply vF_ok. exact H. Qed.
Local Opaque sk find.
Lemma parts_u : forallb outer (u_sep u) = true /\ forallb outer (u_macro u) = true /\ forallb outer (u_args u) = true /\ forallb outer (u_between u) = true.
Proof.
  pose proof u_ok as H. unfold checkF in H. apply andb_prop in H. destruct H as [_ H]. apply andb_prop in H. destruct H as [H _]. apply andb_prop in H. destruct H as [H _]. apply andb_prop in H. destruct H as [H _].
  rewrite !forallb_app in H. apply andb_prop in H. destruct H as [H1 H]. apply andb_prop in H. destruct H as [H2 H]. apply andb_prop in H. destruct H as [H3 H4]. auto.
Qed.
Lemma calls_u : s_walk [] 0 (u_between u) = true /\ s_walk [] 0 (u_out u) = true.
Proof.
  pose proof u_ok as H. unfold checkF in H. apply andb_prop in H. destruct H as [_ H]. apply andb_prop in H. destruct H as [H _]. apply andb_prop in H. destruct H as [H H2]. apply andb_prop in H. tauto.
Qed.
Lemma runs_u : forall first zero, s_walk namesF 0 (pendF u first (O 13) [O 15]) = true /\
  gives (runF u zero (pendF u first (O 13) [O 15])) (endF u zero) = true /\ gives (runE (pendF u first (O 13) [])) [] = true.
Proof.
  intros first zero. pose proof u_ok as H. unfold checkF in H. apply andb_prop in H. destruct H as [_ H]. apply andb_prop in H. destruct H as [_ H]. rewrite forallb_forall in H.
  specialize (H first ltac:(destruct first; cbn; auto)). apply andb_prop in H. destruct H as [H1 H]. rewrite forallb_forall in H.
  specialize (H zero ltac:(destruct zero; cbn; auto)). apply andb_prop in H. tauto.
Qed.

Lemma inner_u : forallb inner (u_out u) = true.
Proof. pose proof u_ok as H. unfold checkF in H. apply andb_prop in H. tauto. Qed.
Lemma flat_inner : forall i w ws s, forallb inner s = true -> flat (vF c i (w :: ws)) s = flat (vF c i [w]) s.
Proof.
  intros i w ws. induction s as [|x s IH]; intros H; [reflexivity|]. cbn [forallb] in H. apply andb_prop in H. destruct H as [H1 H2].
  change (flat1 (vF c i (w :: ws)) x ++ flat (vF c i (w :: ws)) s = flat1 (vF c i [w]) x ++ flat (vF c i [w]) s). rewrite IH by exact H2. f_equal.
  destruct x as [t|k]; [reflexivity|]. cbn [flat1]. do 18 (destruct k as [|k]; [try reflexivity; discriminate|]). reflexivity.
Qed.
Definition between (i : nat) : list tok := if Nat.eqb i 0 then [] else flat c (u_between u).
Definition out1 (i : nat) (w : list tok) : list tok := flat (vF c i [w]) (u_out u).
Fixpoint outs (i : nat) (vs : list (list tok)) : list tok := match vs with [] => [] | w :: ws => between i ++ out1 i w ++ outs (S i) ws end.

Definition textF (w : bool * nat * list (list tok)) : list tok :=
  let '(first, i, vs) := w in flat (vF c i vs) (pendF u first (O 13) (match vs with [] => [] | _ => [O 15] end)).
Definition nextF (w : bool * nat * list (list tok)) : list (list tok + bool * nat * list (list tok)) :=
  let '(first, i, vs) := w in match vs with [] => [] | w :: ws => [inl (between i ++ out1 i w); inr (false, S i, ws)] end.
Definition okF (w : bool * nat * list (list tok)) : Prop := let '(first, i, vs) := w in Forall value vs /\ (i + length vs <= 63)%nat.

Lemma flat_pend : forall v first i l, (forall s, forallb outer s = true -> flat v s = flat c s) ->
  flat v (pendF u first i l) = (if first then [t_foreach] else [t_foreach2; TLp; TRp]) ++ TLp :: flat c (u_sep u) ++ TComma :: flat c (u_macro u) ++ TComma :: flat c (u_args u) ++ TComma :: flat1 v i ++ TComma :: flat v l ++ [TRp].
Proof.
  intros v first i l H. destruct parts_u as (H1 & H2 & H3 & _). unfold pendF.
  assert (E : forall a t b, flat v (a ++ R t :: b) = flat v a ++ t :: flat v b) by (intros a t b; rewrite flat_app; reflexivity).
  assert (F : flat v (if first then [R t_foreach] else [R t_foreach2; R TLp; R TRp]) = (if first then [t_foreach] else [t_foreach2; TLp; TRp])) by (destruct first; reflexivity).
  rewrite E, F. f_equal. f_equal. rewrite E, (H _ H1). f_equal. f_equal. rewrite E, (H _ H2). f_equal. f_equal. rewrite E, (H _ H3). f_equal. f_equal.
  change (i :: R TComma :: l ++ [R TRp]) with ([i] ++ R TComma :: l ++ [R TRp]). rewrite E. f_equal; [apply app_nil_r|]. f_equal. rewrite flat_app. reflexivity.
Qed.
Lemma eqs_hold : forall i vs zero, Forall value vs -> (i <= 62)%nat -> (length vs <= 63)%nat -> vs <> [] -> zero = Nat.eqb i 0 -> Forall (holds base (vF c i vs)) (eqsF u zero).
Proof.
  intros i vs zero Hv Li Lv Ne Hz. destruct vs as [|w ws]; [contradiction|]. assert (Fw : few (w :: ws)) by (split; assumption). destruct parts_u as (H1 & _ & _ & H4).
  unfold eqsF, holds. constructor; [|constructor; [|constructor; [|constructor; [|constructor; [|constructor; [|constructor; [|constructor]]]]]]].
  - cbn [flat flat_map flat1]. rewrite app_nil_r. apply empty_list. exact Fw.
  - apply empty_nil.
  - cbn [flat flat_map flat1]. rewrite !app_nil_r. apply head_list. exact Fw.
  - cbn [flat flat_map flat1]. rewrite !app_nil_r. apply tail_list. exact Fw.
  - subst zero. apply eq_zero. exact Li.
  - apply inc_one. exact Li.
  - rewrite !flat_outer by assumption. exact sep_ok.
Qed.
Lemma names_base : forallb (fun x => has x namesF) base = true.
Proof. vm_cast_no_check (eq_refl true). Qed.
Lemma nextF_ok : forall w, okF w -> Forall (fun x => match x with inl t => fits table Inn t | inr w' => okF w' /\ (length (snd w') < length (snd w))%nat end) (nextF w).
Proof.
  intros [[first i] [|w ws]] [Hv L]; cbn [nextF]; [constructor|]. inversion Hv as [|? ? Hw Hs]; subst. constructor; [|constructor; [|constructor]].
  - destruct calls_u as [B1 B2]. destruct (s_walk_ok [] c (fun k => fits_walk _ _ (c_ok k)) _ _ B1) as [W1 C1].
    destruct (s_walk_ok [] (vF c i [w]) (vF_walk i [w] ltac:(auto)) _ _ B2) as [W2 C2]. unfold between, out1. split.
    + apply Forall_app. split; [destruct (Nat.eqb i 0); [constructor|apply quiet_none; exact C1]|apply quiet_none; exact C2].
    + destruct (Nat.eqb i 0); [exact W2|]. rewrite (walk_app _ _ _ _ _ W1). exact W2.
  - cbn in *. split; [split; [exact Hs|lia]|lia].
Qed.
Lemma textF_ok : forall w, okF w -> walk true 0 (textF w) = Some 0%nat /\ Forall (quiet namesF) (textF w).
Proof.
  intros [[first i] vs] [Hv L]. unfold textF. destruct (runs_u first true) as [S1 _].
  destruct (s_walk_ok namesF (vF c i vs) (vF_walk i vs Hv) _ _ S1) as [W Q].
  destruct vs as [|w ws]; [|auto]. rewrite flat_pend in W, Q |- * by (intros; apply flat_outer; assumption). exact (conj W Q).
Qed.
Lemma textF_step : forall w, okF w -> Closed namesF (textF w) (flat_map (fun x => match x with inl t => t | inr w' => textF w' end) (nextF w)).
Proof.
  intros [[first i] [|w ws]] [Hv L].
  - destruct (runs_u first true) as (_ & _ & G). apply (run_known kindF base [(n_empty, [], [R (number 1)])] namesF (vF c i []) 60 _ [] (vF_ok i [] Hv) names_base); [|exact G].
    constructor; [apply empty_nil|constructor].
  - cbn in L. destruct (runs_u first (Nat.eqb i 0)) as (_ & G & _). inversion Hv as [|? ? Hw Hs]; subst.
    pose proof (run_known kindF base (eqsF u (Nat.eqb i 0)) namesF (vF c i (w :: ws)) 60 _ _ (vF_ok i (w :: ws) Hv) names_base
      (eqs_hold i (w :: ws) _ Hv ltac:(lia) ltac:(cbn; lia) ltac:(discriminate) eq_refl) G) as C.
    cbn [nextF flat_map textF]. rewrite app_nil_r. unfold endF in C. rewrite !flat_app in C.
    assert (E1 : flat (vF c i (w :: ws)) (if Nat.eqb i 0 then [] else u_between u) = between i).
    { unfold between. destruct (Nat.eqb i 0); [reflexivity|]. apply flat_outer. apply parts_u. }
    assert (E2 : flat (vF c i (w :: ws)) (u_out u) = out1 i w) by (apply flat_inner; apply inner_u).
    assert (E3 : flat (vF c i (w :: ws)) (pendF u false (O 14) [O 17]) = flat (vF c (S i) ws) (pendF u false (O 13) (match ws with [] => [] | _ => [O 15] end))).
    { rewrite !flat_pend by (intros; apply flat_outer; assumption). destruct ws as [|x ws]; [reflexivity|]. reflexivity. }
    rewrite E1, E2, E3, app_assoc in C. exact C.
Qed.
Lemma outs_eq : forall w, okF w -> outs (snd (fst w)) (snd w) = flat_map (fun x => match x with inl t => t | inr w' => outs (snd (fst w')) (snd w') end) (nextF w).
Proof. intros [[first i] [|w ws]] _; cbn; [reflexivity|]. rewrite app_nil_r, <- app_assoc. reflexivity. Qed.
Lemma foreach_done : forall vs, Forall value vs -> (length vs <= 63)%nat -> Closed (eval_names namesF) (called ev (textF (true, 0%nat, vs))) (outs 0 vs).
Proof.
  intros vs Hv L. apply (jobs_done namesF _ textF (fun w => outs (snd (fst w)) (snd w)) nextF okF (fun w => length (snd w)) nextF_ok textF_ok textF_step outs_eq) with (w := (true, 0%nat, vs)).
  - vm_compute. reflexivity.
  - split; [exact Hv|exact L].
  - cbn. lia.
Qed.
Lemma outs_fits : forall vs i, Forall value vs -> fits table Inn (outs i vs).
Proof.
  induction vs as [|w ws IH]; intros i H; [split; [constructor|reflexivity]|]. inversion H as [|? ? Hw Hs]; subst. cbn [outs].
  destruct calls_u as [B1 B2]. destruct (s_walk_ok [] c (fun k => fits_walk _ _ (c_ok k)) _ _ B1) as [W1 C1].
  destruct (s_walk_ok [] (vF c i [w]) (vF_walk i [w] ltac:(auto)) _ _ B2) as [W2 C2]. destruct (IH (S i) Hs) as [C3 W3]. unfold between, out1. split.
  - apply Forall_app. split; [destruct (Nat.eqb i 0); [constructor|apply quiet_none; exact C1]|]. apply Forall_app. split; [apply quiet_none; exact C2|exact C3].
  - assert (X : walk true 0 (flat (vF c i [w]) (u_out u) ++ outs (S i) ws) = Some 0%nat) by (rewrite (walk_app _ _ _ _ _ W2); exact W3).
    destruct (Nat.eqb i 0); [exact X|]. rewrite (walk_app _ _ _ _ _ W1). exact X.
Qed.
End Foreach.
