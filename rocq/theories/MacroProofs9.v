(** Proofs about the list macros: a call for each pair of values. *)
From Coq Require Import List NArith Bool Arith Lia.
From Verif Require Import Base MacroModel MacroProofs MacroProofs2 MacroProofs3 MacroProofs4 MacroProofs5 MacroProofs6 MacroProofs7 MacroProofs8.
Import ListNotations.
Local Open Scope N_scope.
Local Arguments lookup : simpl never.
Local Arguments bytes_eqb : simpl never.

(** more unknown parts: 19 all second values; 20 and 21 a number and the next; 22 a list of second values, 23 its first and 24 its others; 25 a first value *)
Definition kindM (k : nat) : cls := match k with 19%nat => Inn | _ => kindF k end.
Record mesh := mkmesh { m_sep : list stok; m_between : list stok; m_macro : list stok; m_args : list stok; m_out : list stok }.
(** the call for the first pair of a row *)
Definition inst (j x : stok) (s : list stok) : list stok := map (fun t => match t with O 20 => j | O 25 => x | _ => t end) s.
Definition t_x : tok := Eval vm_compute in TId (str "_H2PP_FOREACHx") false.
Definition t_x2 : tok := Eval vm_compute in TId (str "__H2PP_FOREACHx") false.
Definition t_y2 : tok := Eval vm_compute in TId (str "__H2PP_FOREACHy") false.
Definition n_remove : bytes := Eval vm_compute in str "H2PP_REMOVE_PARENTHESES".
Definition bare (l : list stok) : list stok := call (R TLp :: l ++ [R TRp]) n_remove.
Definition pendX (u : mesh) (first : bool) (i : stok) (ys xs : list stok) : list stok :=
  (if first then [R t_x] else [R t_x2; R TLp; R TRp]) ++ R TLp :: m_sep u ++ R TComma :: m_macro u ++ R TComma :: m_args u ++ R TComma :: i :: R TComma :: R TLp :: ys ++ R TRp :: R TComma ::
  (if first then bare xs else xs) ++ [R TRp].
Definition pendY (u : mesh) (i j x : stok) (ys : list stok) : list stok :=
  [R t_y2; R TLp; R TRp] ++ R TLp :: m_sep u ++ R TComma :: m_macro u ++ R TComma :: m_args u ++ R TComma :: i :: R TComma :: j :: R TComma :: x :: R TComma :: ys ++ [R TRp].
Definition eqsX0 : list eqn := [(n_empty, [], [R (number 1)])].
Definition eqsXs : list eqn := eqsX0 ++ [(n_empty, [O 15], [R (number 0)]); (n_head, [O 15], [O 16]); (n_tail, [O 15], [O 17]); (n_cat2, [R t_inc; R TComma; O 13], [O 14])].
Definition eqsX (u : mesh) (zero : bool) : list eqn := eqsXs ++
  [(n_empty, [O 19], [R (number 0)]); (n_head, [O 19], [O 23]); (n_tail, [O 19], [O 24]); (n_eq, [R (number 0); R TComma; O 13], [R (one_if zero)]); (n_unparen, m_sep u, m_between u)].
Definition eqsY (u : mesh) (zero : bool) : list eqn := eqsX0 ++
  [(n_empty, [O 22], [R (number 0)]); (n_head, [O 22], [O 23]); (n_tail, [O 22], [O 24]); (n_eq, [R (number 0); R TComma; O 13], [R (one_if zero)]);
   (n_eq, [R (number 0); R TComma; O 20], [R (one_if false)]); (n_cat2, [R t_inc; R TComma; O 20], [O 21]); (n_unparen, m_sep u, m_between u)].
Definition namesM : list bytes := Eval vm_compute in base ++
  [str "_H2PP_FOREACHx"; str "__H2PP_FOREACHx"; str "_H2PP_FOREACHx_0"; str "_H2PP_FOREACHx_1"; str "_H2PP_FOREACHy"; str "__H2PP_FOREACHy"; str "_H2PP_FOREACHy_0"; str "_H2PP_FOREACHy_1";
   str "_H2PP_FULLMESH_CALL_MACRO"; str "_H2PP_FULLMESH_CALL_MACRO_0"; str "_H2PP_FULLMESH_CALL_MACRO_1"; str "H2PP_DEFER"; str "H2PP_AND"; str "_H2PP_AND_0"; str "_H2PP_AND_1";
   str "__H2CASESS_Callback"; str "__H2CASESS2"; str "__H2CASESS_T_Callback"; str "__H2CASESS_T2"; str "_H2FullmeshMacro"].
Definition runM (eqs : list eqn) (s : list stok) : option (list stok) := sk find kindM (known base eqs) namesM 60 true [] (map ST s).
Definition endX (u : mesh) (zero : bool) : list stok :=
  (if zero then [] else m_between u) ++ inst (R (number 0)) (O 16) (m_out u) ++ pendY u (O 13) (R (number 1)) (O 16) [O 24] ++ pendX u false (O 14) [O 19] [O 17].
Definition endY (u : mesh) : list stok := m_between u ++ m_out u ++ pendY u (O 13) (O 21) (O 25) [O 24].
Definition outM (x : stok) : bool := match x with R _ => true | O k => negb (Nat.leb 13 k && Nat.leb k 17) && negb (Nat.leb 19 k && Nat.leb k 25) end.
Definition inM (x : stok) : bool := match x with O 14 | O 15 | O 16 | O 17 | O 19 | O 21 | O 22 | O 24 => false | _ => true end.
Definition checkM (u : mesh) : bool :=
  forallb inM (m_out u) && (
  forallb outM (m_sep u ++ m_macro u ++ m_args u ++ m_between u) && s_walk [] 0 (m_between u) && s_walk [] 0 (m_out u) &&
  s_walk namesM 0 (pendY u (O 13) (O 20) (O 25) [O 22]) &&
  gives (runM eqsX0 (pendY u (O 13) (O 20) (O 25) [])) [] &&
  forallb (fun first => s_walk namesM 0 (pendX u first (O 13) [O 19] [O 15]) && gives (runM eqsX0 (pendX u first (O 13) [O 19] [])) [] && gives (runM eqsX0 (pendX u first (O 13) [] [])) []
    && gives (runM eqsXs (pendX u first (O 13) [] [O 15])) (pendX u false (O 14) [] [O 17])) [true; false] &&
  forallb (fun zero => gives (runM (eqsY u zero) (pendY u (O 13) (O 20) (O 25) [O 22])) (endY u) &&
    forallb (fun first => gives (runM (eqsX u zero) (pendX u first (O 13) [O 19] [O 15])) (endX u zero)) [true; false]) [true; false]).

Definition vM (c : nat -> list tok) (zs : list (list tok)) (i j : nat) (xs : list (list tok)) (x : list tok) (ys : list (list tok)) (k : nat) : list tok :=
  match k with
  | 13%nat => [idx i] | 14%nat => [idx (S i)] | 15%nat => commas xs | 16%nat => hd [number 0] xs | 17%nat => commas (tl xs)
  | 19%nat => commas zs | 20%nat => [idx j] | 21%nat => [idx (S j)] | 22%nat => commas ys | 23%nat => hd [number 0] ys | 24%nat => commas (tl ys) | 25%nat => x
  | _ => c k
  end.
Lemma flat_outM : forall c zs i j xs x ys s, forallb outM s = true -> flat (vM c zs i j xs x ys) s = flat c s.
Proof.
  intros c zs i j xs x ys. induction s as [|t s IH]; intros H; [reflexivity|]. cbn [forallb] in H. apply andb_prop in H. destruct H as [H1 H2].
  change (flat1 (vM c zs i j xs x ys) t ++ flat (vM c zs i j xs x ys) s = flat1 c t ++ flat c s). rewrite IH by exact H2. f_equal. destruct t as [t|k]; [reflexivity|]. cbn [flat1].
  do 26 (destruct k as [|k]; [try reflexivity; discriminate|]). reflexivity.
Qed.

Section Mesh.
Variable u : mesh.
Variable c : nat -> list tok.
Variable zs : list (list tok).
Hypothesis u_ok : checkM u = true.
Hypothesis c_ok : forall k, fits table (kindM k) (c k).
Hypothesis sep_ok : Closed base (called n_unparen (flat c (m_sep u))) (flat c (m_between u)).
Hypothesis zs_ok : Forall value zs.
Hypothesis zs_few : (length zs <= 63)%nat.

Lemma vM_ok : forall i j xs x ys, Forall value xs -> value x -> Forall value ys -> forall k, fits table (kindM k) (vM c zs i j xs x ys k).
Proof.
  intros i j xs x ys Hxs Hx Hys k.
  assert (hd_ok : forall l, Forall value l -> value (hd [number 0] l)) by (intros l []; [apply number_fits|assumption]).
  assert (tl_ok : forall l, Forall value l -> fits table Inn (commas (tl l))) by (intros l Hl; apply commas_inn; destruct Hl; [constructor|assumption]).
  do 13 (destruct k as [|k]; [apply c_ok|]). destruct k as [|k]; [apply idx_fits|]. destruct k as [|k]; [apply idx_fits|].
  destruct k as [|k]; [apply commas_inn; exact Hxs|]. destruct k as [|k]; [apply hd_ok; exact Hxs|]. destruct k as [|k]; [apply tl_ok; exact Hxs|].
  destruct k as [|k]; [apply c_ok|]. destruct k as [|k]; [apply commas_inn; exact zs_ok|]. destruct k as [|k]; [apply idx_fits|]. destruct k as [|k]; [apply idx_fits|].
  destruct k as [|k]; [apply commas_inn; exact Hys|]. destruct k as [|k]; [apply hd_ok; exact Hys|]. destruct k as [|k]; [apply tl_ok; exact Hys|].
  destruct k as [|k]; [exact Hx|]. apply c_ok.
Qed.
Lemma vM_walk : forall i j xs x ys, Forall value xs -> value x -> Forall value ys -> forall k, walk true 0 (vM c zs i j xs x ys k) = Some 0%nat /\ Forall (calm table) (vM c zs i j xs x ys k).
Proof. intros. eapply fits_walk. apply vM_ok; assumption. Qed.
Local Opaque sk find.

Record facts := mkfacts {
  f_inM : forallb inM (m_out u) = true;
  f_sep : forallb outM (m_sep u) = true; f_macro : forallb outM (m_macro u) = true; f_args : forallb outM (m_args u) = true; f_between : forallb outM (m_between u) = true;
  f_wb : s_walk [] 0 (m_between u) = true; f_wo : s_walk [] 0 (m_out u) = true; f_wy : s_walk namesM 0 (pendY u (O 13) (O 20) (O 25) [O 22]) = true;
  f_y0 : gives (runM eqsX0 (pendY u (O 13) (O 20) (O 25) [])) [] = true;
  f_wx : forall first, s_walk namesM 0 (pendX u first (O 13) [O 19] [O 15]) = true;
  f_x0 : forall first, gives (runM eqsX0 (pendX u first (O 13) [O 19] [])) [] = true;
  f_x00 : forall first, gives (runM eqsX0 (pendX u first (O 13) [] [])) [] = true;
  f_x1 : forall first, gives (runM eqsXs (pendX u first (O 13) [] [O 15])) (pendX u false (O 14) [] [O 17]) = true;
  f_y : forall zero, gives (runM (eqsY u zero) (pendY u (O 13) (O 20) (O 25) [O 22])) (endY u) = true;
  f_x : forall zero first, gives (runM (eqsX u zero) (pendX u first (O 13) [O 19] [O 15])) (endX u zero) = true }.
Lemma two : forall P : bool -> bool, forallb P [true; false] = true -> forall b, P b = true.
Proof. intros P H b. rewrite forallb_forall in H. apply H. destruct b; cbn; auto. Qed.
Lemma all_facts : facts.
Proof.
  pose proof u_ok as H. unfold checkM in H. apply andb_prop in H. destruct H as [H0 H]. apply andb_prop in H. destruct H as [H H6]. apply andb_prop in H. destruct H as [H H5].
  apply andb_prop in H. destruct H as [H H4]. apply andb_prop in H. destruct H as [H H3]. apply andb_prop in H. destruct H as [H H2]. apply andb_prop in H. destruct H as [H H1].
  rewrite !forallb_app in H. apply andb_prop in H. destruct H as [A1 H]. apply andb_prop in H. destruct H as [A2 H]. apply andb_prop in H. destruct H as [A3 A4].
  pose proof (two _ H5) as T5. pose proof (two _ H6) as T6. cbv beta in T5, T6. constructor; try assumption; intros.
  - specialize (T5 first). apply andb_prop in T5. destruct T5 as [T5 _]. apply andb_prop in T5. destruct T5 as [T5 _]. apply andb_prop in T5. tauto.
  - specialize (T5 first). apply andb_prop in T5. destruct T5 as [T5 _]. apply andb_prop in T5. destruct T5 as [T5 _]. apply andb_prop in T5. tauto.
  - specialize (T5 first). apply andb_prop in T5. destruct T5 as [T5 _]. apply andb_prop in T5. tauto.
  - specialize (T5 first). apply andb_prop in T5. tauto.
  - specialize (T6 zero). apply andb_prop in T6. tauto.
  - specialize (T6 zero). apply andb_prop in T6. destruct T6 as [_ T6]. pose proof (two _ T6) as T7. apply T7.
Qed.

Lemma e_app : forall v a t b, flat v (a ++ R t :: b) = flat v a ++ t :: flat v b.
Proof. intros v a t b. rewrite flat_app. reflexivity. Qed.
Lemma flat_pendX : forall v first i ys xs, (forall s, forallb outM s = true -> flat v s = flat c s) ->
  flat v (pendX u first i ys xs) = (if first then [t_x] else [t_x2; TLp; TRp]) ++ TLp :: flat c (m_sep u) ++ TComma :: flat c (m_macro u) ++ TComma :: flat c (m_args u) ++ TComma ::
    flat1 v i ++ TComma :: TLp :: flat v ys ++ TRp :: TComma :: (if first then called n_remove (TLp :: flat v xs ++ [TRp]) else flat v xs) ++ [TRp].
Proof.
  intros v first i ys xs H. pose proof all_facts as F. unfold pendX.
  assert (E0 : flat v (if first then [R t_x] else [R t_x2; R TLp; R TRp]) = (if first then [t_x] else [t_x2; TLp; TRp])) by (destruct first; reflexivity).
  rewrite e_app, E0. f_equal. f_equal. rewrite e_app, (H _ (f_sep F)). f_equal. f_equal. rewrite e_app, (H _ (f_macro F)). f_equal. f_equal. rewrite e_app, (H _ (f_args F)). f_equal. f_equal.
  match goal with |- flat v (i :: R TComma :: ?r) = _ => change (i :: R TComma :: r) with ([i] ++ R TComma :: r) end. rewrite e_app. f_equal; [apply app_nil_r|]. f_equal.
  match goal with |- flat v (R TLp :: ?r) = _ => change (flat v (R TLp :: r)) with (TLp :: flat v r) end. f_equal. rewrite e_app. f_equal. f_equal.
  match goal with |- flat v (R TComma :: ?r) = _ => change (flat v (R TComma :: r)) with (TComma :: flat v r) end. f_equal. rewrite flat_app. f_equal.
  destruct first; [|reflexivity]. unfold bare. rewrite flat_call. f_equal. change (flat v (R TLp :: xs ++ [R TRp])) with (TLp :: flat v (xs ++ [R TRp])). rewrite flat_app. reflexivity.
Qed.
Lemma flat_pendY : forall v i j x ys, (forall s, forallb outM s = true -> flat v s = flat c s) ->
  flat v (pendY u i j x ys) = [t_y2; TLp; TRp] ++ TLp :: flat c (m_sep u) ++ TComma :: flat c (m_macro u) ++ TComma :: flat c (m_args u) ++ TComma ::
    flat1 v i ++ TComma :: flat1 v j ++ TComma :: flat1 v x ++ TComma :: flat v ys ++ [TRp].
Proof.
  intros v i j x ys H. pose proof all_facts as F. unfold pendY. rewrite e_app. change (flat v [R t_y2; R TLp; R TRp]) with [t_y2; TLp; TRp].
  f_equal. f_equal. rewrite e_app, (H _ (f_sep F)). f_equal. f_equal. rewrite e_app, (H _ (f_macro F)). f_equal. f_equal. rewrite e_app, (H _ (f_args F)). f_equal. f_equal.
  assert (G : forall a r, flat v (a :: R TComma :: r) = flat1 v a ++ TComma :: flat v r) by reflexivity.
  rewrite !G, flat_app. reflexivity.
Qed.

Definition betweenM (i j : nat) : list tok := if Nat.eqb i 0 && Nat.eqb j 0 then [] else flat c (m_between u).
Definition out4 (i j : nat) (x y : list tok) : list tok := flat (vM c [] i j [] x [y]) (m_out u).
Fixpoint row (i j : nat) (x : list tok) (ys : list (list tok)) : list tok := match ys with [] => [] | y :: r => betweenM i j ++ out4 i j x y ++ row i (S j) x r end.
Fixpoint rows (i : nat) (xs : list (list tok)) : list tok := match xs with [] => [] | x :: r => row i 0 x zs ++ rows (S i) r end.

Lemma flat_out4 : forall i j xs x ys s, forallb inM s = true -> flat (vM c zs i j xs x ys) s = flat (vM c [] i j [] x [hd [number 0] ys]) s.
Proof.
  intros i j xs x ys. induction s as [|t s IH]; intros H; [reflexivity|]. cbn [forallb] in H. apply andb_prop in H. destruct H as [H1 H2].
  match goal with |- flat ?v (?a :: ?b) = flat ?w (?d :: ?e) => change (flat1 v a ++ flat v b = flat1 w d ++ flat w e) end. rewrite IH by exact H2. f_equal.
  destruct t as [t|k]; [reflexivity|]. cbn [flat1]. do 26 (destruct k as [|k]; [try reflexivity; discriminate|]). reflexivity.
Qed.
Lemma flat_inst : forall i j x xs x' ys s, forallb inM s = true -> flat (vM c zs i j (x :: xs) x' ys) (inst (R (number 0)) (O 16) s) = flat (vM c [] i 0 [] x [hd [number 0] ys]) s.
Proof.
  intros i j x xs x' ys. induction s as [|t s IH]; intros H; [reflexivity|]. cbn [forallb] in H. apply andb_prop in H. destruct H as [H1 H2].
  unfold inst. cbn [map]. match goal with |- flat ?v (?a :: ?b) = flat ?w (?d :: ?e) => change (flat1 v a ++ flat v b = flat1 w d ++ flat w e) end. fold (inst (R (number 0)) (O 16) s). rewrite IH by exact H2. f_equal.
  destruct t as [t|k]; [reflexivity|]. do 26 (destruct k as [|k]; [try reflexivity; discriminate|]). reflexivity.
Qed.

Inductive job := JX (first : bool) (i : nat) (xs : list (list tok)) | JY (i j : nat) (x : list tok) (ys : list (list tok)).
Definition part (l : list (list tok)) (k : nat) : list stok := match l with [] => [] | _ => [O k] end.
Definition textM (w : job) : list tok :=
  match w with
  | JX first i xs => flat (vM c zs i 0 xs [number 0] zs) (pendX u first (O 13) (part zs 19) (part xs 15))
  | JY i j x ys => flat (vM c zs i j [] x ys) (pendY u (O 13) (O 20) (O 25) (part ys 22))
  end.
Definition nextM (w : job) : list (list tok + job) :=
  match w with
  | JX _ i [] => []
  | JX _ i (x :: xs) => match zs with [] => [inr (JX false (S i) xs)] | y :: ys => [inl (betweenM i 0 ++ out4 i 0 x y); inr (JY i 1 x ys); inr (JX false (S i) xs)] end
  | JY _ _ _ [] => []
  | JY i j x (y :: ys) => [inl (betweenM i j ++ out4 i j x y); inr (JY i (S j) x ys)]
  end.
Definition okM (w : job) : Prop :=
  match w with
  | JX _ i xs => Forall value xs /\ (i + length xs <= 63)%nat
  | JY i j x ys => value x /\ Forall value ys /\ (i <= 62)%nat /\ (1 <= j)%nat /\ (j + length ys <= 63)%nat
  end.
Definition depthM (w : job) : nat := match w with JX _ _ xs => (length xs + 64)%nat | JY _ _ _ ys => length ys end.
Definition resM (w : job) : list tok := match w with JX _ i xs => rows i xs | JY i j x ys => row i j x ys end.

Lemma call_fits : forall i j x y, value x -> value y -> fits table Inn (betweenM i j ++ out4 i j x y).
Proof.
  intros i j x y Hx Hy. pose proof all_facts as F. destruct (s_walk_ok [] c (fun k => fits_walk _ _ (c_ok k)) _ _ (f_wb F)) as [W1 C1].
  assert (V : forall k, walk true 0 (vM c [] i j [] x [y] k) = Some 0%nat /\ Forall (calm table) (vM c [] i j [] x [y] k)).
  { assert (E : forall k, vM c [] i j [] x [y] k = (if Nat.eqb k 19 then [] else vM c zs i j [] x [y] k)) by (intro k; do 26 (destruct k as [|k]; [reflexivity|]); reflexivity).
    intro k. rewrite E. destruct (Nat.eqb k 19); [split; [reflexivity|constructor]|]. apply vM_walk; auto. }
  destruct (s_walk_ok [] _ V _ _ (f_wo F)) as [W2 C2]. unfold betweenM, out4. split.
  - apply Forall_app. split; [destruct (Nat.eqb i 0 && Nat.eqb j 0); [constructor|apply quiet_none; exact C1]|apply quiet_none; exact C2].
  - destruct (Nat.eqb i 0 && Nat.eqb j 0); [exact W2|]. rewrite (walk_app _ _ _ _ _ W1). exact W2.
Qed.
Lemma zs_case : zs = [] \/ exists y ys, zs = y :: ys.
Proof. clear. destruct zs as [|y ys]; [left; reflexivity|right; exists y, ys; reflexivity]. Qed.
Lemma nextM_ok : forall w, okM w -> Forall (fun x => match x with inl t => fits table Inn t | inr w' => okM w' /\ (depthM w' < depthM w)%nat end) (nextM w).
Proof.
  intros [first i [|x xs]|i j x [|y ys]] H; cbn [nextM]; try (constructor; fail).
  - destruct H as [Hv L]. inversion Hv as [|? ? Hx Hs]; subst. cbn in L. destruct zs_case as [Z|(y & ys & Z)].
    + rewrite Z. constructor; [|constructor]. cbn. repeat split; auto; lia.
    + assert (Hy : Forall value (y :: ys)) by (rewrite <- Z; exact zs_ok). assert (Ly : (length (y :: ys) <= 63)%nat) by (rewrite <- Z; exact zs_few). pose proof (Forall_inv Hy) as Hy1. pose proof (Forall_inv_tail Hy) as Hy2. cbn in Ly. rewrite Z.
      constructor; [apply call_fits; assumption|]. constructor; [|constructor; [|constructor]].
      * cbn. refine (conj (conj Hx (conj Hy2 (conj _ (conj _ _)))) _); lia.
      * cbn. refine (conj (conj Hs _) _); lia.
  - destruct H as (Hx & Hy & Li & Lj & L). pose proof (Forall_inv Hy) as Hy1. pose proof (Forall_inv_tail Hy) as Hy2. cbn in L. constructor; [apply call_fits; assumption|]. constructor; [|constructor]. cbn. refine (conj (conj Hx (conj Hy2 (conj _ (conj _ _)))) _); lia.
Qed.
Lemma part_flat : forall (v : nat -> list tok) l k, v k = commas l -> flat v (part l k) = commas l.
Proof. intros v [|x l] k E; [reflexivity|]. cbn. rewrite app_nil_r. exact E. Qed.
Lemma textM_ok : forall w, okM w -> walk true 0 (textM w) = Some 0%nat /\ Forall (quiet namesM) (textM w).
Proof.
  pose proof all_facts as F. intros [first i xs|i j x ys] H; cbn [textM].
  - destruct H as [Hv L]. destruct (s_walk_ok namesM _ (vM_walk i 0 xs [number 0] zs Hv (number_fits 0) zs_ok) _ _ (f_wx F first)) as [W Q].
    rewrite flat_pendX in W, Q |- * by (intros; apply flat_outM; assumption). rewrite !part_flat by reflexivity. cbn [flat flat_map flat1 vM] in W, Q. rewrite !app_nil_r in W, Q. exact (conj W Q).
  - destruct H as (Hx & Hy & _). destruct (s_walk_ok namesM _ (vM_walk i j [] x ys ltac:(constructor) Hx Hy) _ _ (f_wy F)) as [W Q].
    rewrite flat_pendY in W, Q |- * by (intros; apply flat_outM; assumption). rewrite !part_flat by reflexivity. cbn [flat flat_map flat1 vM] in W, Q. rewrite !app_nil_r in W, Q. exact (conj W Q).
Qed.
Lemma names_baseM : forallb (fun x => has x namesM) base = true.
Proof. vm_cast_no_check (eq_refl true). Qed.
Lemma hold_all : forall i j xs x ys e, Forall value xs -> value x -> Forall value ys -> (i <= 62)%nat -> (1 <= j <= 62)%nat -> (length xs <= 63)%nat -> (length ys <= 63)%nat ->
  In e (eqsX0 ++ (if Nat.leb 1 (length xs) then [(n_empty, [O 15], [R (number 0)]); (n_head, [O 15], [O 16]); (n_tail, [O 15], [O 17])] else []) ++
    [(n_cat2, [R t_inc; R TComma; O 13], [O 14]); (n_eq, [R (number 0); R TComma; O 13], [R (one_if (Nat.eqb i 0))]); (n_unparen, m_sep u, m_between u);
     (n_eq, [R (number 0); R TComma; O 20], [R (one_if false)]); (n_cat2, [R t_inc; R TComma; O 20], [O 21])] ++
    (if Nat.leb 1 (length ys) then [(n_empty, [O 22], [R (number 0)]); (n_head, [O 22], [O 23]); (n_tail, [O 22], [O 24])] else []) ++
    (if Nat.leb 1 (length ys) then [(n_empty, [O 19], [R (number 0)]); (n_head, [O 19], [O 23]); (n_tail, [O 19], [O 24])] else [])) ->
  (ys = zs \/ ~ In e [(n_empty, [O 19], [R (number 0)]); (n_head, [O 19], [O 23]); (n_tail, [O 19], [O 24])]) -> holds base (vM c zs i j xs x ys) e.
Proof.
  pose proof all_facts as F. intros i j xs x ys e Hxs Hx Hys Li Lj Lx Ly I NZ. unfold eqsX0 in I. apply in_app_or in I. destruct I as [[<-|[]]|I]; [apply empty_nil|].
  apply in_app_or in I. destruct I as [I|I].
  { destruct xs as [|w ws]; [contradiction|]. assert (Fw : few (w :: ws)) by (split; [assumption|lia]). cbn [length Nat.leb] in I.
    destruct I as [<-|[<-|[<-|[]]]]; unfold holds; cbn [flat flat_map flat1 vM hd tl]; rewrite !app_nil_r; [apply empty_list|apply head_list|apply tail_list]; exact Fw. }
  apply in_app_or in I. destruct I as [I|I].
  { destruct I as [<-|[<-|[<-|[<-|[<-|[]]]]]]; unfold holds.
    - apply inc_one. exact Li.
    - apply eq_zero. exact Li.
    - rewrite !flat_outM by apply F. exact sep_ok.
    - pose proof (eq_zero j ltac:(lia)) as E. replace (Nat.eqb j 0) with false in E by (symmetry; apply Nat.eqb_neq; lia). exact E.
    - apply inc_one. lia. }
  apply in_app_or in I. destruct I as [I|I].
  { destruct ys as [|w ws]; [contradiction|]. assert (Fw : few (w :: ws)) by (split; [assumption|lia]). cbn [length Nat.leb] in I.
    destruct I as [<-|[<-|[<-|[]]]]; unfold holds; cbn [flat flat_map flat1 vM hd tl]; rewrite !app_nil_r; [apply empty_list|apply head_list|apply tail_list]; exact Fw. }
  destruct NZ as [NZ|NZ]; [|exfalso; apply NZ; destruct ys; [contradiction|exact I]].
  destruct ys as [|w ws]; [contradiction|]. assert (Fw : few (w :: ws)) by (split; [assumption|lia]). cbn [length Nat.leb] in I.
  destruct I as [<-|[<-|[<-|[]]]]; unfold holds; cbn [flat flat_map flat1 vM hd tl]; rewrite !app_nil_r, <- NZ; [apply empty_list|apply head_list|apply tail_list]; exact Fw.
Qed.
Ltac pick := repeat (first [left; reflexivity | right]).
Lemma textM_step : forall w, okM w -> Closed namesM (textM w) (flat_map (fun x => match x with inl t => t | inr w' => textM w' end) (nextM w)).
Proof.
  pose proof all_facts as F.
  assert (RK : forall i j xs x ys eqs s out, Forall value xs -> value x -> Forall value ys -> Forall (holds base (vM c zs i j xs x ys)) eqs ->
    gives (runM eqs s) out = true -> Closed namesM (flat (vM c zs i j xs x ys) s) (flat (vM c zs i j xs x ys) out)).
  { intros i j xs x ys eqs s out Hxs Hx Hys He G. exact (run_known kindM base eqs namesM _ 60 s out (vM_ok i j xs x ys Hxs Hx Hys) names_baseM He G). }
  assert (E0 : forall v, Forall (holds base v) eqsX0) by (intro v; constructor; [apply empty_nil|constructor]).
  intros [first i [|x xs]|i j x [|y ys]] H; cbn [nextM flat_map textM].
  - destruct H as [Hv _]. cbn [part]. destruct zs_case as [Z|(y & ys & Z)].
    + rewrite Z at 3. cbn [part]. apply (RK i 0%nat [] [number 0] zs eqsX0 _ []); auto; [apply number_fits|apply (f_x00 F)].
    + rewrite Z at 3. cbn [part]. apply (RK i 0%nat [] [number 0] zs eqsX0 _ []); auto; [apply number_fits|apply (f_x0 F)].
  - destruct H as [Hv L]. cbn [length] in L. pose proof (Forall_inv Hv) as Hx. pose proof (Forall_inv_tail Hv) as Hs. change (part (x :: xs) 15) with [O 15].
    assert (Same : forall s, forallb outM s = true -> flat (vM c zs i 1 (x :: xs) [number 0] zs) s = flat c s) by (intros; apply flat_outM; assumption).
    assert (Swap : flat (vM c zs i 0 (x :: xs) [number 0] zs) (pendX u first (O 13) (part zs 19) [O 15]) = flat (vM c zs i 1 (x :: xs) [number 0] zs) (pendX u first (O 13) (part zs 19) [O 15])).
    { rewrite !flat_pendX by (intros; apply flat_outM; assumption). rewrite !part_flat by reflexivity. reflexivity. }
    rewrite Swap. clear Swap.
    assert (Next : flat (vM c zs i 1 (x :: xs) [number 0] zs) (pendX u false (O 14) (part zs 19) [O 17]) = textM (JX false (S i) xs)).
    { cbn [textM]. rewrite !flat_pendX by (intros; apply flat_outM; assumption). rewrite !part_flat by reflexivity. cbn [flat flat_map flat1 vM tl]. rewrite app_nil_r. reflexivity. }
    destruct zs_case as [Z|(y & ys & Z)].
    + assert (P : part zs 19 = []) by (rewrite Z; reflexivity). rewrite P in Next |- *.
      replace (match zs with [] => [inr (JX false (S i) xs)] | y :: ys => [inl (betweenM i 0 ++ out4 i 0 x y); inr (JY i 1 x ys); inr (JX false (S i) xs)] end)
        with ([inr (JX false (S i) xs)] : list (list tok + job)) by (rewrite Z; reflexivity).
      cbn [flat_map]. rewrite app_nil_r, <- Next. apply (RK i 1%nat (x :: xs) [number 0] zs eqsXs); [exact Hv|apply number_fits|exact zs_ok| |apply (f_x1 F)].
      apply Forall_forall. intros e He. apply hold_all; [exact Hv|apply number_fits|exact zs_ok|lia|lia|cbn; lia|exact zs_few| |left; reflexivity].
      apply in_app_or in He. apply in_or_app. destruct He as [He|He]; [left; exact He|right]. apply in_or_app. cbn [length Nat.leb].
      destruct He as [<-|[<-|[<-|[<-|[]]]]]; [left; pick|left; pick|left; pick|right; apply in_or_app; left; pick].
    + assert (P : part zs 19 = [O 19]) by (rewrite Z; reflexivity). rewrite P in Next |- *.
      assert (Hd : hd [number 0] zs = y) by (rewrite Z; reflexivity). assert (Tl : tl zs = ys) by (rewrite Z; reflexivity). assert (Lz : Nat.leb 1 (length zs) = true) by (rewrite Z; reflexivity).
      replace (match zs with [] => [inr (JX false (S i) xs)] | y :: ys => [inl (betweenM i 0 ++ out4 i 0 x y); inr (JY i 1 x ys); inr (JX false (S i) xs)] end)
        with ([inl (betweenM i 0 ++ out4 i 0 x y); inr (JY i 1 x ys); inr (JX false (S i) xs)] : list (list tok + job)) by (rewrite Z; reflexivity).
      cbn [flat_map]. rewrite app_nil_r, <- Next.
      assert (C : Closed namesM (flat (vM c zs i 1 (x :: xs) [number 0] zs) (pendX u first (O 13) [O 19] [O 15])) (flat (vM c zs i 1 (x :: xs) [number 0] zs) (endX u (Nat.eqb i 0)))).
      { apply (RK i 1%nat (x :: xs) [number 0] zs (eqsX u (Nat.eqb i 0))); [exact Hv|apply number_fits|exact zs_ok| |apply (f_x F)].
        apply Forall_forall. intros e He. apply hold_all; [exact Hv|apply number_fits|exact zs_ok|lia|lia|cbn; lia|exact zs_few| |left; reflexivity].
        rewrite Lz. cbn [length Nat.leb]. cbn [eqsX eqsXs eqsX0 app] in He |- *. cbn [In] in He |- *. intuition auto 20. }
      unfold endX in C. rewrite !flat_app in C. rewrite flat_inst in C by apply F. rewrite Hd in C. fold (out4 i 0 x y) in C.
      assert (E1 : flat (vM c zs i 1 (x :: xs) [number 0] zs) (if Nat.eqb i 0 then [] else m_between u) = betweenM i 0).
      { unfold betweenM. cbn [Nat.eqb]. rewrite andb_true_r. destruct (Nat.eqb i 0); [reflexivity|]. apply Same. apply F. }
      assert (E2 : flat (vM c zs i 1 (x :: xs) [number 0] zs) (pendY u (O 13) (R (number 1)) (O 16) [O 24]) = textM (JY i 1 x ys)).
      { cbn [textM]. rewrite !flat_pendY by (intros; apply flat_outM; assumption). rewrite !part_flat by reflexivity. cbn [flat flat_map flat1 vM hd]. rewrite app_nil_r, Tl. reflexivity. }
      rewrite E1, E2 in C. rewrite <- app_assoc. exact C.
  - destruct H as (Hx & Hy & _). cbn [part]. apply (RK i j [] x [] eqsX0 _ []); auto. apply (f_y0 F).
  - destruct H as (Hx & Hy & Li & Lj & L). cbn [length] in L. rewrite app_nil_r. change (part (y :: ys) 22) with [O 22].
    assert (C : Closed namesM (flat (vM c zs i j [] x (y :: ys)) (pendY u (O 13) (O 20) (O 25) [O 22])) (flat (vM c zs i j [] x (y :: ys)) (endY u))).
    { apply (RK i j [] x (y :: ys) (eqsY u (Nat.eqb i 0))); [constructor|exact Hx|exact Hy| |apply (f_y F)].
      apply Forall_forall. intros e He. apply hold_all; [constructor|exact Hx|exact Hy|lia|lia|cbn; lia|cbn; lia| |].
      - cbn [length Nat.leb]. cbn [eqsY eqsX0 app] in He |- *. cbn [In] in He |- *. intuition auto 20.
      - right. cbn [eqsY eqsX0 app In] in He |- *. intros K. destruct K as [K|[K|[K|[]]]]; subst e; clear - He; intuition discriminate. }
    unfold endY in C. rewrite !flat_app in C. rewrite (flat_out4 i j [] x (y :: ys) (m_out u)) in C by apply F. cbn [hd] in C. fold (out4 i j x y) in C.
    assert (E1 : flat (vM c zs i j [] x (y :: ys)) (m_between u) = betweenM i j).
    { unfold betweenM. replace (Nat.eqb j 0) with false by (symmetry; apply Nat.eqb_neq; lia). rewrite andb_false_r. apply flat_outM. apply F. }
    assert (E2 : flat (vM c zs i j [] x (y :: ys)) (pendY u (O 13) (O 21) (O 25) [O 24]) = textM (JY i (S j) x ys)).
    { cbn [textM]. rewrite !flat_pendY by (intros; apply flat_outM; assumption). rewrite !part_flat by reflexivity. cbn [flat flat_map flat1 vM tl]. rewrite app_nil_r. reflexivity. }
    rewrite E1, E2 in C. rewrite <- app_assoc. exact C.
Qed.
Lemma resM_eq : forall w, okM w -> resM w = flat_map (fun x => match x with inl t => t | inr w' => resM w' end) (nextM w).
Proof.
  intros [first i [|x xs]|i j x [|y ys]] _; cbn [nextM resM rows row flat_map]; try reflexivity.
  - destruct zs_case as [Z|(y & ys & Z)].
    + replace (match zs with [] => [inr (JX false (S i) xs)] | y :: ys => [inl (betweenM i 0 ++ out4 i 0 x y); inr (JY i 1 x ys); inr (JX false (S i) xs)] end)
        with ([inr (JX false (S i) xs)] : list (list tok + job)) by (rewrite Z; reflexivity).
      replace (row i 0 x zs) with ([] : list tok) by (rewrite Z; reflexivity). cbn. rewrite app_nil_r. reflexivity.
    + replace (match zs with [] => [inr (JX false (S i) xs)] | y :: ys => [inl (betweenM i 0 ++ out4 i 0 x y); inr (JY i 1 x ys); inr (JX false (S i) xs)] end)
        with ([inl (betweenM i 0 ++ out4 i 0 x y); inr (JY i 1 x ys); inr (JX false (S i) xs)] : list (list tok + job)) by (rewrite Z; reflexivity).
      replace (row i 0 x zs) with (betweenM i 0 ++ out4 i 0 x y ++ row i 1 x ys) by (rewrite Z; reflexivity). cbn [flat_map resM]. rewrite app_nil_r, <- !app_assoc. reflexivity.
  - rewrite app_nil_r, <- app_assoc. reflexivity.
Qed.
Lemma mesh_done : forall xs, Forall value xs -> (length xs <= 63)%nat -> Closed (eval_names namesM) (called ev (textM (JX true 0 xs))) (rows 0 xs).
Proof.
  intros xs Hv L. apply (jobs_done namesM _ textM resM nextM okM depthM nextM_ok textM_ok textM_step resM_eq) with (w := JX true 0 xs).
  - vm_compute. reflexivity.
  - split; [exact Hv|exact L].
  - cbn. lia.
Qed.
Lemma row_fits : forall x ys i j, value x -> Forall value ys -> fits table Inn (row i j x ys).
Proof.
  intros x. induction ys as [|y ys IH]; intros i j Hx H; [split; [constructor|reflexivity]|]. pose proof (Forall_inv H) as Hy. pose proof (Forall_inv_tail H) as Hs. cbn [row].
  destruct (call_fits i j x y Hx Hy) as [C1 W1]. destruct (IH i (S j) Hx Hs) as [C2 W2]. rewrite app_assoc. split; [apply Forall_app; auto|]. rewrite (walk_app _ _ _ _ _ W1). exact W2.
Qed.
Lemma rows_fits : forall xs i, Forall value xs -> fits table Inn (rows i xs).
Proof.
  induction xs as [|x xs IH]; intros i H; [split; [constructor|reflexivity]|]. pose proof (Forall_inv H) as Hx. pose proof (Forall_inv_tail H) as Hs. cbn [rows].
  destruct (row_fits x zs i 0 Hx zs_ok) as [C1 W1]. destruct (IH (S i) Hs) as [C2 W2]. split; [apply Forall_app; auto|]. rewrite (walk_app _ _ _ _ _ W1). exact W2.
Qed.
End Mesh.
