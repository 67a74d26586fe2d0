(** Proofs about the list macros: calls counted, and the last value. *)
From Coq Require Import List NArith Bool Arith Lia.
From Verif Require Import Base MacroModel MacroProofs MacroProofs2 MacroProofs3 MacroProofs4 MacroProofs5 MacroProofs6 MacroProofs7 MacroProofs8.
Import ListNotations.
Local Open Scope N_scope.
Local Arguments lookup : simpl never.
Local Arguments bytes_eqb : simpl never.

(** *** a call for each number; 13 is a number, 14 the one before *)
Definition t_repeat : tok := Eval vm_compute in TId (str "_H2PP_REPEAT") false.
Definition t_repeat2 : tok := Eval vm_compute in TId (str "__H2PP_REPEAT") false.
Definition pendR (u : use) (first : bool) (i : stok) : list stok :=
  (if first then [R t_repeat] else [R t_repeat2; R TLp; R TRp]) ++ R TLp :: u_sep u ++ R TComma :: u_macro u ++ R TComma :: u_args u ++ R TComma :: i :: [R TRp].
Definition eqsR (u : use) (zero : bool) : list eqn :=
  [(n_bool, [O 13], [R (number 1)]); (n_cat2, [R t_dec; R TComma; O 13], [O 14]); (n_eq, [R (number 0); R TComma; O 14], [R (one_if zero)]); (n_unparen, u_sep u, u_between u)].
Definition namesR : list bytes := Eval vm_compute in base ++
  [str "_H2PP_REPEAT"; str "__H2PP_REPEAT"; str "_H2PP_REPEAT_0"; str "_H2PP_REPEAT_1"; str "_H2PP_REPEAT_CALL_MACRO"; str "_H2PP_REPEAT_CALL_MACRO_0"; str "_H2PP_REPEAT_CALL_MACRO_1"; str "H2PP_DEFER"].
Definition runR (eqs : list eqn) (s : list stok) : option (list stok) := sk find kindF (known base eqs) namesR 60 true [] (map ST s).
Definition endR (u : use) (zero : bool) : list stok := pendR u false (O 14) ++ (if zero then [] else u_between u) ++ u_out u.
Definition innerR (x : stok) : bool := match x with O k => negb (Nat.eqb k 13) && negb (Nat.leb 15 k && Nat.leb k 17) | _ => true end.
Definition outerR (x : stok) : bool := match x with O k => negb (Nat.eqb k 13) && negb (Nat.eqb k 14) | _ => true end.
Definition checkR (u : use) : bool :=
  forallb outerR (u_sep u ++ u_macro u ++ u_args u ++ u_between u) && s_walk [] 0 (u_between u) && s_walk [] 0 (u_out u) &&
  forallb (fun first => s_walk namesR 0 (pendR u first (O 13)) && gives (runR [(n_bool, [O 13], [R (number 0)])] (pendR u first (O 13))) [] &&
    forallb (fun zero => gives (runR (eqsR u zero) (pendR u first (O 13))) (endR u zero)) [true; false]) [true; false].

Definition vR (c : nat -> list tok) (n : nat) (k : nat) : list tok := match k with 13%nat => [idx n] | 14%nat => [idx (pred n)] | _ => c k end.
Lemma flat_outerR : forall c n s, forallb outerR s = true -> flat (vR c n) s = flat c s.
Proof.
  intros c n. induction s as [|x s IH]; intros H; [reflexivity|]. cbn [forallb] in H. apply andb_prop in H. destruct H as [H1 H2].
  match goal with |- flat ?v (?a :: ?b) = flat ?w (?d :: ?e) => change (flat1 v a ++ flat v b = flat1 w d ++ flat w e) end. rewrite IH by exact H2. f_equal. destruct x as [t|k]; [reflexivity|].
  cbn [flat1]. do 15 (destruct k as [|k]; [try reflexivity; discriminate|]). reflexivity.
Qed.

Section Repeat.
Variable u : use.
Variable c : nat -> list tok.
Hypothesis u_ok : checkR u = true.
Hypothesis c_ok : forall k, fits table (kindF k) (c k).
Hypothesis sep_ok : Closed base (called n_unparen (flat c (u_sep u))) (flat c (u_between u)).
Lemma vR_ok : forall n k, fits table (kindF k) (vR c n k).
Proof. intros n k. do 13 (destruct k as [|k]; [apply c_ok|]). destruct k as [|k]; [apply idx_fits|]. destruct k as [|k]; [apply idx_fits|]. apply c_ok. Qed.
Local Opaque sk find.
Record factsR := mkfactsR {
  r_sep : forallb outerR (u_sep u) = true; r_macro : forallb outerR (u_macro u) = true; r_args : forallb outerR (u_args u) = true; r_between : forallb outerR (u_between u) = true;
  r_wb : s_walk [] 0 (u_between u) = true; r_wo : s_walk [] 0 (u_out u) = true;
  r_w : forall first, s_walk namesR 0 (pendR u first (O 13)) = true;
  r_0 : forall first, gives (runR [(n_bool, [O 13], [R (number 0)])] (pendR u first (O 13))) [] = true;
  r_1 : forall first zero, gives (runR (eqsR u zero) (pendR u first (O 13))) (endR u zero) = true }.
Lemma two' : forall P : bool -> bool, forallb P [true; false] = true -> forall b, P b = true.
Proof. intros P H b. rewrite forallb_forall in H. apply H. destruct b; cbn; auto. Qed.
Lemma all_factsR : factsR.
Proof.
  pose proof u_ok as H. unfold checkR in H. apply andb_prop in H. destruct H as [H H3]. apply andb_prop in H. destruct H as [H H2]. apply andb_prop in H. destruct H as [H H1].
  rewrite !forallb_app in H. apply andb_prop in H. destruct H as [A1 H]. apply andb_prop in H. destruct H as [A2 H]. apply andb_prop in H. destruct H as [A3 A4].
  pose proof (two' _ H3) as T. cbv beta in T. constructor; try assumption; intros first.
  - specialize (T first). apply andb_prop in T. destruct T as [T _]. apply andb_prop in T. tauto.
  - specialize (T first). apply andb_prop in T. destruct T as [T _]. apply andb_prop in T. tauto.
  - specialize (T first). apply andb_prop in T. destruct T as [_ T]. exact (two' _ T).
Qed.
Definition betweenR (i : nat) : list tok := if Nat.eqb i 0 then [] else flat c (u_between u).
Definition outR (i : nat) : list tok := flat (vR c (S i)) (u_out u).
Fixpoint reps (n : nat) : list tok := match n with Datatypes.O => [] | S i => reps i ++ betweenR i ++ outR i end.
Definition textR (w : bool * nat) : list tok := flat (vR c (snd w)) (pendR u (fst w) (O 13)).
Definition nextR (w : bool * nat) : list (list tok + bool * nat) := match snd w with Datatypes.O => [] | S i => [inr (false, i); inl (betweenR i ++ outR i)] end.
Definition okR (w : bool * nat) : Prop := (snd w <= 32)%nat.
Lemma flat_pendR : forall v first i, (forall s, forallb outerR s = true -> flat v s = flat c s) ->
  flat v (pendR u first i) = (if first then [t_repeat] else [t_repeat2; TLp; TRp]) ++ TLp :: flat c (u_sep u) ++ TComma :: flat c (u_macro u) ++ TComma :: flat c (u_args u) ++ TComma :: flat1 v i ++ [TRp].
Proof.
  intros v first i H. pose proof all_factsR as F. unfold pendR.
  assert (E : forall a t b, flat v (a ++ R t :: b) = flat v a ++ t :: flat v b) by (intros a t b; rewrite flat_app; reflexivity).
  assert (E0 : flat v (if first then [R t_repeat] else [R t_repeat2; R TLp; R TRp]) = (if first then [t_repeat] else [t_repeat2; TLp; TRp])) by (destruct first; reflexivity).
  rewrite E, E0. f_equal. f_equal. rewrite E, (H _ (r_sep F)). f_equal. f_equal. rewrite E, (H _ (r_macro F)). f_equal. f_equal. rewrite E, (H _ (r_args F)). reflexivity.
Qed.
Lemma callR_fits : forall i, fits table Inn (betweenR i ++ outR i).
Proof.
  intro i. pose proof all_factsR as F. destruct (s_walk_ok [] c (fun k => fits_walk _ _ (c_ok k)) _ _ (r_wb F)) as [W1 C1].
  destruct (s_walk_ok [] (vR c (S i)) (fun k => fits_walk _ _ (vR_ok (S i) k)) _ _ (r_wo F)) as [W2 C2]. unfold betweenR, outR. split.
  - apply Forall_app. split; [destruct (Nat.eqb i 0); [constructor|apply quiet_none; exact C1]|apply quiet_none; exact C2].
  - destruct (Nat.eqb i 0); [exact W2|]. rewrite (walk_app _ _ _ _ _ W1). exact W2.
Qed.
Lemma names_baseR : forallb (fun x => has x namesR) base = true.
Proof. vm_cast_no_check (eq_refl true). Qed.
Lemma repeat_done : forall n, (n <= 32)%nat -> Closed (eval_names namesR) (called ev (textR (true, n))) (reps n).
Proof.
  intros n L. pose proof all_factsR as F. apply (jobs_done namesR (bool * nat) textR (fun w => reps (snd w)) nextR okR snd) with (w := (true, n)).
  - intros [first [|i]] H; cbn [nextR snd]; [constructor|]. constructor; [|constructor; [apply callR_fits|constructor]]. unfold okR in *. cbn in *. lia.
  - intros [first i] _. unfold textR. apply s_walk_ok; [intro k; eapply fits_walk; apply vR_ok|apply (r_w F)].
  - intros [first [|i]] H; unfold okR in H; cbn [fst snd] in H; cbn [nextR snd flat_map]; unfold textR at 1; cbn [fst snd].
    + apply (run_known kindF base [(n_bool, [O 13], [R (number 0)])] namesR (vR c 0) 60 _ [] (vR_ok 0) names_baseR); [|apply (r_0 F)]. constructor; [apply (bool_of 0); lia|constructor].
    + pose proof (run_known kindF base (eqsR u (Nat.eqb i 0)) namesR (vR c (S i)) 60 (pendR u first (O 13)) (endR u (Nat.eqb i 0)) (vR_ok (S i)) names_baseR) as C.
      assert (HE : Forall (holds base (vR c (S i))) (eqsR u (Nat.eqb i 0))).
      { constructor; [apply (bool_of (S i)); lia|]. constructor; [apply (dec_one i); lia|]. constructor; [apply (eq_zero i); lia|]. constructor; [|constructor].
        unfold holds. rewrite !flat_outerR by apply F. exact sep_ok. }
      specialize (C HE (r_1 F first (Nat.eqb i 0))). unfold endR in C. rewrite !flat_app in C. rewrite app_nil_r.
      assert (E1 : flat (vR c (S i)) (if Nat.eqb i 0 then [] else u_between u) = betweenR i) by (unfold betweenR; destruct (Nat.eqb i 0); [reflexivity|apply flat_outerR; apply F]).
      assert (E2 : flat (vR c (S i)) (pendR u false (O 14)) = textR (false, i)).
      { unfold textR. cbn [fst snd]. rewrite !flat_pendR by (intros; apply flat_outerR; assumption). reflexivity. }
      rewrite E1, E2 in C. exact C.
  - intros [first [|i]] _; cbn [nextR snd flat_map]; [reflexivity|]. rewrite app_nil_r. reflexivity.
  - vm_compute. reflexivity.
  - exact L.
  - cbn. lia.
Qed.
Lemma reps_fits : forall n, fits table Inn (reps n).
Proof.
  induction n as [|n IH]; [split; [constructor|reflexivity]|]. cbn [reps]. destruct IH as [C1 W1]. destruct (callR_fits n) as [C2 W2]. split; [apply Forall_app; auto|].
  rewrite (walk_app _ _ _ _ _ W1). exact W2.
Qed.
End Repeat.

(** *** the last value *)
Definition t_last : tok := Eval vm_compute in TId (str "_H2PP_LAST") false.
Definition t_last2 : tok := Eval vm_compute in TId (str "__H2PP_LAST") false.
Definition pendL (first : bool) (l : list stok) : list stok := (if first then [R t_last] else [R t_last2; R TLp; R TRp]) ++ R TLp :: l ++ [R TRp].
Definition eq_narg : list stok := Eval vm_compute in R (number 1) :: R TComma :: call [O 15] n_narg.
Definition eqsL (one : bool) : list eqn :=
  [(n_empty, [O 15], [R (number 0)]); (n_tail, [O 15], [O 17]); (n_eq, eq_narg, [R (one_if one)])].
Definition namesL : list bytes := Eval vm_compute in base ++ [str "_H2PP_LAST"; str "__H2PP_LAST"; str "_H2PP_LAST_0"; str "_H2PP_LAST_1"; str "_H2PP_LAST_0_0"; str "_H2PP_LAST_0_1"; str "H2PP_DEFER"].
Definition runL (eqs : list eqn) (s : list stok) : option (list stok) := sk find kindF (known base eqs) namesL 60 true [] (map ST s).
Lemma runL_some : forall first, gives (runL (eqsL false) (pendL first [O 15])) (pendL false [O 17]) = true /\ gives (runL (eqsL true) (pendL first [O 15])) [O 15] = true /\ s_walk namesL 0 (pendL first [O 15]) = true.
Proof. intros [|]; (split; [vm_cast_no_check (eq_refl true)|split; vm_cast_no_check (eq_refl true)]). Qed.
Lemma runL_none : gives (runL [(n_empty, [], [R (number 1)])] (pendL true [])) [] = true.
Proof. vm_cast_no_check (eq_refl true). Qed.
Definition runN (n : nat) : option (list stok) := sk find kindF (known base [(n_narg, [O 15], [R (number n)])]) base 60 true [] (map ST (call eq_narg n_eq)).
Lemma runN_all : forallb (fun n => gives (runN n) [R (one_if (Nat.eqb n 1))]) (seq 1 63) = true.
Proof. vm_cast_no_check (eq_refl true). Qed.

Local Opaque sk find.
Definition lastly (vs : list (list tok)) : list tok := last vs [].
Definition vL (vs : list (list tok)) (k : nat) : list tok := match k with 15%nat => commas vs | 17%nat => commas (tl vs) | _ => match kindF k with Inn => [] | _ => [number 0] end end.
Lemma vL_ok : forall vs, Forall value vs -> forall k, fits table (kindF k) (vL vs k).
Proof.
  intros vs H k. assert (D : forall k, fits table (kindF k) (match kindF k with Inn => [] | _ => [number 0] end)).
  { clear k. intro k. destruct (kindF k); [exact (dummy_fits 0)|apply number_fits|split; [constructor|reflexivity]]. }
  do 15 (destruct k as [|k]; [apply D|]). destruct k as [|k]; [apply commas_inn; exact H|]. destruct k as [|k]; [apply D|].
  destruct k as [|k]; [apply commas_inn; destruct H; [constructor|assumption]|]. apply D.
Qed.
Lemma eq_narg_ok : forall w ws, few (w :: ws) -> Closed base (called n_eq (flat (vL (w :: ws)) eq_narg)) [one_if (Nat.eqb (length (w :: ws)) 1)].
Proof.
  intros w ws F. pose proof F as [Hv L]. set (n := length (w :: ws)) in *.
  assert (G : gives (runN n) [R (one_if (Nat.eqb n 1))] = true).
  { pose proof runN_all as A. rewrite forallb_forall in A. apply (A n). clear A. apply in_seq. assert (1 <= n)%nat by (unfold n; cbn [length]; lia). lia. }
  pose proof (run_known kindF base [(n_narg, [O 15], [R (number n)])] base (vL (w :: ws)) 60 (call eq_narg n_eq) [R (one_if (Nat.eqb n 1))] (vL_ok _ Hv)) as C. rewrite <- flat_call. apply (C ltac:(vm_cast_no_check (eq_refl true))); [|exact G].
  constructor; [|constructor]. unfold holds. pose proof (narg_list w ws F) as N. cbn [flat flat_map flat1 app]. rewrite app_nil_r. exact N.
Qed.
Definition textL (w : bool * list (list tok)) : list tok := flat (vL (snd w)) (pendL (fst w) (match snd w with [] => [] | _ => [O 15] end)).
Definition nextL (w : bool * list (list tok)) : list (list tok + bool * list (list tok)) :=
  match snd w with [] => [] | [x] => [inl x] | _ :: ws => [inr (false, ws)] end.
Definition okL (w : bool * list (list tok)) : Prop := few (snd w) /\ (fst w = false -> snd w <> []).
Lemma last_done : forall vs, few vs -> Closed (eval_names namesL) (called ev (textL (true, vs))) (lastly vs).
Proof.
  intros vs F. apply (jobs_done namesL _ textL (fun w => lastly (snd w)) nextL okL (fun w => length (snd w))) with (w := (true, vs)).
  - intros [first l] [[Hv L] N]. unfold nextL. cbn [fst snd] in *. destruct l as [|x [|y l]]; [constructor| |].
    + constructor; [|constructor]. apply Forall_inv in Hv. destruct Hv as (C & _ & W). split; [exact C|apply walk_true; exact W].
    + constructor; [|constructor]. split; [|cbn; lia]. split; [split; [exact (Forall_inv_tail Hv)|cbn [length snd] in *; lia]|discriminate].
  - intros [first l] [[Hv L] N]. cbn [fst snd] in *. unfold textL. cbn [fst snd]. apply s_walk_ok; [intro k; eapply fits_walk; apply vL_ok; exact Hv|].
    destruct l; [|apply runL_some]. destruct first; [vm_compute; reflexivity|exfalso; apply N; reflexivity].
  - intros [first l] [[Hv L] N]. cbn [fst snd] in *. destruct l as [|x l].
    + destruct first; [|exfalso; apply N; reflexivity]. apply (run_known kindF base [(n_empty, [], [R (number 1)])] namesL (vL []) 60 (pendL true []) [] (vL_ok _ Hv)); [vm_compute; reflexivity| |exact runL_none].
      constructor; [exact empty_nil|constructor].
    + assert (HE : Forall (holds base (vL (x :: l))) (eqsL (Nat.eqb (length (x :: l)) 1))).
      { constructor; [|constructor; [|constructor; [|constructor]]].
        - unfold holds. cbn [flat flat_map flat1 app]. rewrite app_nil_r. apply empty_list. split; assumption.
        - unfold holds. cbn [flat flat_map flat1 app]. rewrite !app_nil_r. apply tail_list. split; assumption.
        - apply eq_narg_ok. split; assumption. }
      destruct (runL_some first) as (G1 & G2 & _).
      destruct l as [|y l].
      * pose proof (run_known kindF base _ namesL (vL [x]) 60 _ _ (vL_ok _ Hv) ltac:(vm_compute; reflexivity) HE G2) as C. exact C.
      * pose proof (run_known kindF base _ namesL (vL (x :: y :: l)) 60 _ _ (vL_ok _ Hv) ltac:(vm_compute; reflexivity) HE G1) as C.
        unfold nextL, textL in *. cbn [fst snd flat_map] in *. rewrite app_nil_r.
        match goal with |- Closed _ ?a ?b => match type of C with Closed _ ?a' ?b' => replace b with b'; [exact C|] end end.
        reflexivity.
  - intros [first l] _. destruct l as [|x [|y l]]; [reflexivity|cbn; rewrite app_nil_r; reflexivity|]. unfold nextL, lastly. cbn [fst snd flat_map]. rewrite app_nil_r. reflexivity.
  - vm_compute. reflexivity.
  - split; [exact F|discriminate].
  - destruct F as [_ L]. cbn [snd]. lia.
Qed.
