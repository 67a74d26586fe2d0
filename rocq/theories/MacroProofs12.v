(** Proofs about the list macros: the macros that start the other loops, and calls by the number of values. *)
From Coq Require Import List NArith Bool Arith Lia.
From Verif Require Import Base MacroModel MacroProofs MacroProofs2 MacroProofs3 MacroProofs4 MacroProofs5 MacroProofs6 MacroProofs7 MacroProofs8 MacroProofs9 MacroProofs10 MacroProofs11.
Import ListNotations.
Local Open Scope N_scope.
Local Arguments lookup : simpl never.
Local Arguments bytes_eqb : simpl never.
Local Opaque sk find.

(** *** H2PP_FULLMESH and what is built on it *)
Definition outsM : list bytes := Eval vm_compute in
  [str "H2PP_FULLMESH"; str "H2Fullmesh"; str "__H2CASESS1"; str "__H2CASESS_T1"; str "H2PP_RESCAN"; str "_H2PP_FULLMESH1_0"; str "H2PP_FULLMESH1"; str "_H2PP_FULLMESH2_0"; str "_H2PP_FULLMESH2_1"; str "_H2PP_FULLMESH2_0_R"; str "H2PP_FULLMESH2"]
  ++ eval_names namesM.
Definition list19 (some : bool) : list stok := if some then [O 19] else [].
Definition two_eqs (sx sy : bool) : list eqn :=
  [(n_empty, tuple (list15 sx) ++ R TComma :: tuple (list19 sy), [R (number 0)]); (n_empty, tuple (list19 sy), [R (number 0)])].
Definition one_eqs (sx : bool) : list eqn := [(n_empty, tuple (list15 sx), [R (number 0)]); (n_empty, [], [R (number 1)])].
Definition topM (u : mesh) (sx sy : bool) (s out : list stok) : bool :=
  forallb no40 (m_sep u ++ m_macro u ++ m_args u) && gives (run40 kindM namesM (pendX u true (R (number 0)) (list19 sy) (list15 sx)) (two_eqs sx sy) outsM s) out.
Definition topS (u : mesh) (sx : bool) (s out : list stok) : bool :=
  forallb no40 (m_sep u ++ m_macro u ++ m_args u) && gives (run40 kindM namesM (pendX u true (R (number 0)) (list15 sx) (list15 sx)) (one_eqs sx) outsM s) out.
Lemma names_evM : forallb (fun x => has x (eval_names namesM)) base = true. Proof. vm_compute. reflexivity. Qed.
Lemma names_outM : forallb (fun x => has x outsM) (eval_names namesM) = true. Proof. vm_compute. reflexivity. Qed.
Lemma walk_deep : forall p d e f, walk true d p = Some e -> walk false (S f + d) p = Some (S f + e)%nat.
Proof.
  induction p as [|t p IH]; intros d e f H; [injection H as <-; reflexivity|].
  destruct t; cbn [walk] in *; try (apply IH; exact H).
  - specialize (IH (S d) e f H). rewrite Nat.add_succ_r in IH. exact IH.
  - destruct d as [|d]; [discriminate|]. rewrite Nat.add_succ_r. apply IH. exact H.
  - cbn [Nat.add]. change (S (f + d)) with (S f + d)%nat. apply IH. destruct d; exact H.
Qed.
Lemma value_tuple : forall vs, Forall value vs -> value (TLp :: commas vs ++ [TRp]).
Proof.
  intros vs H. destruct (commas_inn vs H) as [C W]. split; [constructor; [exact Logic.I|]; apply Forall_app; split; [exact C|repeat constructor]|]. split; [discriminate|].
  cbn [walk]. rewrite (walk_app _ _ _ _ _ (walk_deep _ _ _ 0 W)). reflexivity.
Qed.
Lemma flat_tuple : forall v l, flat v (tuple l) = TLp :: flat v l ++ [TRp].
Proof. intros v l. unfold tuple. change (flat v (R TLp :: l ++ [R TRp])) with (TLp :: flat v (l ++ [R TRp])). rewrite flat_app. reflexivity. Qed.
Lemma flat_list15 : forall v vs, v 15%nat = commas vs -> flat v (list15 (someb vs)) = commas vs.
Proof. intros v vs H. destruct vs; [reflexivity|]. cbn [list15 someb flat flat_map flat1]. rewrite app_nil_r. exact H. Qed.
Lemma flat_list19 : forall v vs, v 19%nat = commas vs -> flat v (list19 (someb vs)) = commas vs.
Proof. intros v vs H. destruct vs; [reflexivity|]. cbn [list19 someb flat flat_map flat1]. rewrite app_nil_r. exact H. Qed.
Definition vtop (c : nat -> list tok) (xs ys : list (list tok)) : nat -> list tok := vM c ys 0 0 xs [number 0] ys.
Lemma no40_pendX : forall u xs ys, forallb no40 (m_sep u ++ m_macro u ++ m_args u) = true -> forallb no40 xs = true -> forallb no40 ys = true -> forallb no40 (pendX u true (R (number 0)) ys xs) = true.
Proof.
  intros u xs ys T0 X Y. rewrite !forallb_app in T0. apply andb_prop in T0. destruct T0 as [A1 T0]. apply andb_prop in T0. destruct T0 as [A2 A3].
  unfold pendX, bare, call. repeat (cbn [app forallb no40 andb]; rewrite ?forallb_app, ?A1, ?A2, ?A3, ?X, ?Y). reflexivity.
Qed.
Lemma mesh_top : forall u c s out xs ys, checkM u = true -> (forall k, fits table (kindM k) (c k)) -> Closed base (called n_unparen (flat c (m_sep u))) (flat c (m_between u)) ->
  Forall value xs -> (length xs <= 63)%nat -> Forall value ys -> (length ys <= 63)%nat -> topM u (someb xs) (someb ys) s out = true ->
  Closed outsM (flat (put40 (vtop c xs ys) (rows u c ys 0 xs)) s) (flat (put40 (vtop c xs ys) (rows u c ys 0 xs)) out).
Proof.
  intros u c s out xs ys Hu Hc Hs Hx Lx Hy Ly T. unfold topM in T. apply andb_prop in T. destruct T as [T0 T1].
  assert (V : forall k, fits table (kindM k) (vtop c xs ys k)) by (apply vM_ok; auto; apply number_fits).
  eapply run40_closed; [exact V|apply rows_fits; auto|exact names_outM| | | | |exact names_evM|exact T1].
  - apply no40_pendX; [exact T0|destruct xs; reflexivity|destruct ys; reflexivity].
  - pose proof (mesh_done u c ys Hu Hc Hs Hy Ly xs Hx Lx) as D. unfold textM in D. unfold vtop. rewrite (flat_pendX u c Hu) in D |- * by (intros; apply flat_outM; assumption).
    rewrite flat_list15, flat_list19 by reflexivity. rewrite !part_flat in D by reflexivity. exact D.
  - constructor; [|constructor; [|constructor]]; unfold holds.
    + rewrite flat_app. change (flat ?v (R TComma :: ?r)) with (TComma :: flat v r). change (flat ?v (R TComma :: tuple ?l)) with (TComma :: flat v (tuple l)).
      rewrite !flat_tuple, flat_list15, flat_list19 by reflexivity. apply (empty_list (TLp :: commas xs ++ [TRp]) [TLp :: commas ys ++ [TRp]]). split; [|cbn; lia].
      constructor; [apply value_tuple; exact Hx|]. constructor; [apply value_tuple; exact Hy|constructor].
    + rewrite flat_tuple, flat_list19 by reflexivity. apply (empty_list (TLp :: commas ys ++ [TRp]) []). split; [|cbn; lia]. constructor; [apply value_tuple; exact Hy|constructor].
  - destruct xs, ys; reflexivity.
Qed.
Lemma square_top : forall u c s out xs, checkM u = true -> (forall k, fits table (kindM k) (c k)) -> Closed base (called n_unparen (flat c (m_sep u))) (flat c (m_between u)) ->
  Forall value xs -> (length xs <= 63)%nat -> topS u (someb xs) s out = true ->
  Closed outsM (flat (put40 (vtop c xs xs) (rows u c xs 0 xs)) s) (flat (put40 (vtop c xs xs) (rows u c xs 0 xs)) out).
Proof.
  intros u c s out xs Hu Hc Hs Hx Lx T. unfold topS in T. apply andb_prop in T. destruct T as [T0 T1].
  assert (V : forall k, fits table (kindM k) (vtop c xs xs k)) by (apply vM_ok; auto; apply number_fits).
  eapply run40_closed; [exact V|apply rows_fits; auto|exact names_outM| | | | |exact names_evM|exact T1].
  - apply no40_pendX; [exact T0|destruct xs; reflexivity|destruct xs; reflexivity].
  - pose proof (mesh_done u c xs Hu Hc Hs Hx Lx xs Hx Lx) as D. unfold textM in D. unfold vtop. rewrite (flat_pendX u c Hu) in D |- * by (intros; apply flat_outM; assumption).
    rewrite flat_list15 by reflexivity. rewrite !part_flat in D by reflexivity. exact D.
  - constructor; [|constructor; [exact empty_nil|constructor]]; unfold holds.
    rewrite flat_tuple, flat_list15 by reflexivity. apply (empty_list (TLp :: commas xs ++ [TRp]) []). split; [|cbn; lia]. constructor; [apply value_tuple; exact Hx|constructor].
  - destruct xs; reflexivity.
Qed.

Definition useM (x : sep3) (a : bool) : mesh :=
  mkmesh (s_in x) (s_out x) [O 11] (a_in a) ([O 11; R TLp] ++ a_in a ++ [R TComma; O 13; R TComma; O 20; R TComma; O 25; R TComma; O 23; R TRp]).
Lemma useM_ok : forall x a, checkM (useM x a) = true.
Proof. intros [| |] [|]; vm_cast_no_check (eq_refl true). Qed.
Definition n_mesh : bytes := Eval vm_compute in str "H2PP_FULLMESH".
Definition callM (x : sep3) (a sx sy : bool) : list stok :=
  call (s_in x ++ R TComma :: O 11 :: R TComma :: a_in a ++ R TComma :: tuple (list15 sx) ++ R TComma :: tuple (list19 sy)) n_mesh.
Definition callS (x : sep3) (a sx : bool) : list stok :=
  call (s_in x ++ R TComma :: O 11 :: R TComma :: a_in a ++ R TComma :: tuple (list15 sx)) n_mesh.
Lemma topM_ok : forall x a sx sy, topM (useM x a) sx sy (callM x a sx sy) [O 40] = true.
Proof. intros [| |] [|] [|] [|]; vm_cast_no_check (eq_refl true). Qed.
Lemma topS_ok : forall x a sx, topS (useM x a) sx (callS x a sx) [O 40] = true.
Proof. intros [| |] [|] [|]; vm_cast_no_check (eq_refl true). Qed.

Definition cbs : tok := Eval vm_compute in t_id (str "__H2CASESS_Callback").
Definition cbsT : tok := Eval vm_compute in t_id (str "__H2CASESS_T_Callback").
Definition cbsE : tok := Eval vm_compute in t_id (str "_H2FullmeshMacro").
Definition useCs (t : bool) : mesh :=
  mkmesh [] [] [R (if t then cbsT else cbs)] pack
    ([R t_case; R TLp; O 31; O 13; R t_dot; O 20; R t_dot; O 25; R TComma; O 23; R TRp; R t_lb; O 30] ++
     (if t then [R t_lt; O 25; R TComma; O 23; R t_gt; R TLp; R TRp] else [R TLp; O 25; R TComma; O 23; R TRp]) ++ [R t_semi; R t_rb]).
Definition useEs : mesh := mkmesh [] [] [R cbsE] [R TLp; O 30; R TRp] [O 30; R TLp; O 25; R TComma; O 23; R TRp].
Lemma useCs_ok : forall t, checkM (useCs t) = true. Proof. intros [|]; vm_cast_no_check (eq_refl true). Qed.
Lemma useEs_ok : checkM useEs = true. Proof. vm_cast_no_check (eq_refl true). Qed.
Definition n_casess (t : bool) : bytes := Eval vm_compute in if t then str "__H2CASESS_T1" else str "__H2CASESS1".
Definition n_meshes : bytes := Eval vm_compute in str "H2Fullmesh".
Definition declCs (t : bool) : list stok * list stok := Eval vm_compute in
  if t then (raw (str "template <typename x, typename y> static void"), raw (str "()")) else (raw (str "template <typename Tx, typename Ty> static void"), raw (str "(Tx x, Ty y)")).
Definition casesCs (t : bool) : list stok := let d := fst (declCs t) ++ O 30 :: snd (declCs t) in d ++ R t_semi :: O 40 :: R t_semi :: d.
Lemma topCs_ok : forall t sx sy, topM (useCs t) sx sy (call (O 30 :: R TComma :: O 31 :: R TComma :: tuple (list15 sx) ++ R TComma :: tuple (list19 sy)) (n_casess t)) (casesCs t) = true.
Proof. intros [|] [|] [|]; vm_cast_no_check (eq_refl true). Qed.
Lemma topCs1_ok : forall t sx, topS (useCs t) sx (call (O 30 :: R TComma :: O 31 :: R TComma :: tuple (list15 sx)) (n_casess t)) (casesCs t) = true.
Proof. intros [|] [|]; vm_cast_no_check (eq_refl true). Qed.
Lemma topEs_ok : forall sx sy, topM useEs sx sy (call (O 30 :: R TComma :: tuple (list15 sx) ++ R TComma :: tuple (list19 sy)) n_meshes) [O 40] = true.
Proof. intros [|] [|]; vm_cast_no_check (eq_refl true). Qed.
Lemma topEs1_ok : forall sx, topS useEs sx (call (O 30 :: R TComma :: tuple (list15 sx)) n_meshes) [O 40] = true.
Proof. intros [|]; vm_cast_no_check (eq_refl true). Qed.

(** *** H2PP_REPEAT *)
Definition outsR : list bytes := Eval vm_compute in str "H2PP_REPEAT" :: eval_names namesR.
Definition n_repeat : bytes := Eval vm_compute in str "H2PP_REPEAT".
Definition useR (x : sep3) (a : bool) : use := mkuse (s_in x) (s_out x) [O 11] (a_in a) ([O 11; R TLp] ++ a_in a ++ [R TComma; O 14; R TRp]).
Lemma useR_ok : forall x a, checkR (useR x a) = true.
Proof. intros [| |] [|]; vm_cast_no_check (eq_refl true). Qed.
Definition callR (x : sep3) (a : bool) : list stok := call (s_in x ++ R TComma :: O 11 :: R TComma :: a_in a ++ [R TComma; O 13]) n_repeat.
Definition topR (u : use) (s out : list stok) : bool :=
  forallb no40 (pendR u true (O 13)) && gives (run40 kindF namesR (pendR u true (O 13)) [] outsR s) out.
Lemma topR_ok : forall x a, topR (useR x a) (callR x a) [O 40] = true.
Proof. intros [| |] [|]; vm_cast_no_check (eq_refl true). Qed.
Lemma names_evR : forallb (fun x => has x (eval_names namesR)) base = true. Proof. vm_compute. reflexivity. Qed.
Lemma names_outR : forallb (fun x => has x outsR) (eval_names namesR) = true. Proof. vm_compute. reflexivity. Qed.
Lemma repeat_top : forall u c s out n, checkR u = true -> (forall k, fits table (kindF k) (c k)) -> Closed base (called n_unparen (flat c (u_sep u))) (flat c (u_between u)) ->
  (n <= 32)%nat -> topR u s out = true -> Closed outsR (flat (put40 (vR c n) (reps u c n)) s) (flat (put40 (vR c n) (reps u c n)) out).
Proof.
  intros u c s out n Hu Hc Hs L T. unfold topR in T. apply andb_prop in T. destruct T as [T0 T1].
  eapply run40_closed; [apply vR_ok; exact Hc|apply reps_fits; assumption|exact names_outR|exact T0| |constructor|reflexivity|exact names_evR|exact T1].
  exact (repeat_done u c Hu Hc Hs n L).
Qed.

(** *** H2PP_LAST *)
Definition outsL : list bytes := Eval vm_compute in str "H2PP_LAST" :: eval_names namesL.
Definition n_last : bytes := Eval vm_compute in str "H2PP_LAST".
Lemma topL_ok : forall some, gives (run40 kindF namesL (pendL true (list15 some)) [] outsL (call (list15 some) n_last)) [O 40] = true.
Proof. intros [|]; vm_cast_no_check (eq_refl true). Qed.
Lemma last_fits : forall vs, Forall value vs -> fits table Inn (lastly vs).
Proof.
  intros vs H. unfold lastly. induction H as [|w ws Hw _ IH]; [split; [constructor|reflexivity]|]. cbn [last]. destruct ws; [|exact IH].
  destruct Hw as (C & _ & W). split; [exact C|apply walk_true; exact W].
Qed.
Lemma last_top : forall vs, few vs -> Closed outsL (called n_last (commas vs)) (lastly vs).
Proof.
  intros vs F. pose proof F as [Hv L].
  pose proof (run40_closed kindF namesL (pendL true (list15 (someb vs))) [] outsL (vL vs) (lastly vs) (call (list15 (someb vs)) n_last) [O 40] (vL_ok vs Hv) (last_fits vs Hv)
    ltac:(vm_compute; reflexivity) ltac:(destruct vs; reflexivity)) as C.
  rewrite flat_40, flat_call, flat_put40, flat_list15 in C by (try reflexivity; destruct vs; reflexivity). apply C; [|constructor|reflexivity|vm_compute; reflexivity|apply topL_ok].
  pose proof (last_done vs F) as D. destruct vs; exact D.
Qed.

Lemma narg_nil : Closed base (called n_narg []) [number 0].
Proof. eapply closed_sub; [exact used_base|exact narg_none]. Qed.
