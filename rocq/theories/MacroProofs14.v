(** Proofs about the list macros: the statements about pairs, counts and choices. *)
From Coq Require Import List NArith Bool Arith Lia DecimalString.
From Verif Require Import Base MacroModel MacroProofs MacroProofs2 MacroProofs3 MacroProofs4 MacroProofs5 MacroProofs6 MacroProofs7 MacroProofs8 MacroProofs9 MacroProofs10 MacroProofs11 MacroProofs12 MacroProofs13.
From Verif Require MacroSpec.
Import ListNotations.
Local Open Scope N_scope.
Local Arguments lookup : simpl never.
Local Arguments bytes_eqb : simpl never.
Local Opaque sk find.

Lemma each_becomes : forall p vs, MacroSpec.value p -> Forall MacroSpec.value vs -> (length vs <= 63)%nat ->
  MacroSpec.becomes (MacroSpec.macro_use (str "H2Foreach") [p; MacroSpec.group (MacroSpec.listed vs)]) (later [] (fun _ v => MacroSpec.applied p [v]) 0 vs).
Proof.
  intros p vs Hp Hv L. apply values_fit in Hv. apply value_fits in Hp. set (c := c2 p [number 0]). pose proof (c2_ok p [number 0] Hp (number_fits 0) : forall k, fits table (kindF k) (c k)) as Hc.
  assert (Eo : forall ws i, outs useE c i ws = later [] (fun _ v => MacroSpec.applied p [v]) i ws).
  { induction ws as [|w ws IH]; intro i; [reflexivity|]. cbn [outs later]. rewrite IH. unfold between. change (flat c (u_between useE)) with (@nil tok). f_equal. }
  pose proof (foreach_top useE c (call (O 30 :: R TComma :: tuple (list15 (someb vs))) n_each) [O 40] vs useE_ok Hc unparen_none Hv L (topE_ok (someb vs))) as C.
  apply closed_becomes in C. rewrite flat_40, Eo in C. rewrite flat_call in C. set (V := put40 (vF c 0 vs) _) in *.
  assert (E1 : flat V (O 30 :: R TComma :: tuple (list15 (someb vs))) = commas [p; MacroSpec.group (MacroSpec.listed vs)]).
  { change (flat V (O 30 :: R TComma :: tuple (list15 (someb vs)))) with (p ++ TComma :: flat V (tuple (list15 (someb vs)))). rewrite flat_tuple, flat_list15 by reflexivity. rewrite (listed_commas vs). reflexivity. }
  rewrite E1 in C. rewrite use_called. exact C.
Qed.

(** *** pairs *)
Fixpoint later_row {A} (bet : list tok) (f : nat -> nat -> A -> A -> list tok) (i j : nat) (x : A) (ys : list A) : list tok :=
  match ys with [] => [] | y :: r => (if Nat.eqb i 0 && Nat.eqb j 0 then [] else bet) ++ f i j x y ++ later_row bet f i (S j) x r end.
Fixpoint later_rows {A} (bet : list tok) (f : nat -> nat -> A -> A -> list tok) (ys : list A) (i : nat) (xs : list A) : list tok :=
  match xs with [] => [] | x :: r => later_row bet f i 0 x ys ++ later_rows bet f ys (S i) r end.
Definition pf {A} (f : nat -> nat -> A -> A -> list tok) (p : (nat * A) * (nat * A)) : list tok := f (fst (fst p)) (fst (snd p)) (snd (fst p)) (snd (snd p)).
Lemma row_flat : forall A bet (f : nat -> nat -> A -> A -> list tok) i x ys j, (i <> 0%nat \/ j <> 0%nat) ->
  later_row bet f i j x ys = flat_map (fun t => bet ++ t) (map (pf f) (map (fun y => ((i, x), y)) (combine (seq j (length ys)) ys))).
Proof.
  intros A bet f i x. induction ys as [|y ys IH]; intros j H; [reflexivity|]. cbn [later_row length seq combine map flat_map].
  assert (E : Nat.eqb i 0 && Nat.eqb j 0 = false) by (destruct H as [H|H]; apply Nat.eqb_neq in H; rewrite H; [reflexivity|apply andb_false_r]). rewrite E, IH by (right; discriminate). unfold pf at 2. cbn [fst snd]. rewrite <- app_assoc. reflexivity.
Qed.
Lemma rows_flat : forall A bet (f : nat -> nat -> A -> A -> list tok) ys xs i, (i <> 0)%nat ->
  later_rows bet f ys i xs = flat_map (fun t => bet ++ t) (map (pf f) (flat_map (fun x => map (fun y => (x, y)) (MacroSpec.numbered ys)) (combine (seq i (length xs)) xs))).
Proof.
  intros A bet f ys. induction xs as [|x xs IH]; intros i H; [reflexivity|]. cbn [later_rows length seq combine flat_map]. rewrite map_app, flat_map_app, <- IH by discriminate. f_equal. apply row_flat. left. exact H.
Qed.
Lemma rows_joined : forall A bet (f : nat -> nat -> A -> A -> list tok) ys xs, later_rows bet f ys 0 xs = MacroSpec.joined bet (map (pf f) (MacroSpec.pairs xs ys)).
Proof.
  intros A bet f ys [|x xs]; [reflexivity|]. unfold MacroSpec.pairs. cbn [later_rows]. change (MacroSpec.numbered (x :: xs)) with ((0%nat, x) :: combine (seq 1 (length xs)) xs).
  rewrite (rows_flat A bet f ys xs 1) by discriminate. cbn [flat_map]. destruct ys as [|y ys].
  - cbn [later_row app MacroSpec.numbered length seq combine map]. assert (E : forall (l : list (nat * A)), flat_map (fun x0 : nat * A => map (fun y : nat * A => (x0, y)) (MacroSpec.numbered [])) l = []) by (induction l; auto). rewrite E. reflexivity.
  - change (MacroSpec.numbered (y :: ys)) with ((0%nat, y) :: combine (seq 1 (length ys)) ys). cbn [later_row Nat.eqb andb app map MacroSpec.joined]. unfold pf at 2. cbn [fst snd].
    rewrite (row_flat A bet f 0 x ys 1) by (right; discriminate). rewrite map_app, flat_map_app, <- app_assoc. reflexivity.
Qed.

Definition callof4 (m a : list tok) (i j : nat) (x y : list tok) : list tok := MacroSpec.applied m [a; [shown i]; [shown j]; x; y].
(** what the calls are, from what one call is *)
Lemma rows_are : forall u c bet f, flat c (m_between u) = bet -> (forall i j x y, out4 u c i j x y = f i j x y) -> forall ys xs i, rows u c ys i xs = later_rows bet f ys i xs.
Proof.
  intros u c bet f Hb Hf ys. assert (R1 : forall x l i j, row u c i j x l = later_row bet f i j x l).
  { intro x. induction l as [|y l IH]; intros i j; [reflexivity|]. cbn [row later_row]. unfold betweenM. rewrite IH, Hf, Hb. reflexivity. }
  induction xs as [|x xs IH]; intro i; [reflexivity|]. cbn [rows later_rows]. rewrite IH, R1. reflexivity.
Qed.
Lemma mesh_becomes : forall sep bet m a xs ys, MacroSpec.separates sep bet -> MacroSpec.plain m -> MacroSpec.argument a ->
  Forall MacroSpec.value xs -> (length xs <= 63)%nat -> Forall MacroSpec.value ys -> (length ys <= 63)%nat ->
  MacroSpec.becomes (MacroSpec.macro_use (str "H2PP_FULLMESH") [sep; m; a; MacroSpec.group (MacroSpec.listed xs); MacroSpec.group (MacroSpec.listed ys)]) (later_rows bet (callof4 m a) ys 0 xs).
Proof.
  intros sep bet m a xs ys Hs Hm Ha Hx Lx Hy Ly. apply values_fit in Hx, Hy. destruct (separators _ _ Hs) as (x & s1 & s2 & F1 & F2 & Es). destruct (arguments _ Ha) as (b & a1 & Fa & Ea).
  set (c := cF s1 s2 m a1 [number 0] [number 0]).
  assert (Hc : forall k, fits table (kindM k) (c k)) by (apply cM_ok; auto; [apply plain_fits; exact Hm|apply number_fits|apply number_fits]).
  assert (Hsep : Closed base (called n_unparen (flat c (m_sep (useM x b)))) (flat c (m_between (useM x b)))) by (apply sep_closed; [exact F1|exact F2]).
  assert (Eo : rows (useM x b) c ys 0 xs = later_rows bet (callof4 m a) ys 0 xs).
  { apply rows_are; [apply (Es c eq_refl eq_refl)|]. intros i j x' y'. unfold out4.
    change (flat (vM c [] i j [] x' [y']) (m_out (useM x b))) with (m ++ TLp :: flat (vM c [] i j [] x' [y']) (a_in b ++ [R TComma; O 13; R TComma; O 20; R TComma; O 25; R TComma; O 23; R TRp])).
    rewrite flat_app, flat_outM by (destruct b; reflexivity). rewrite (Ea c eq_refl). unfold callof4, MacroSpec.applied, MacroSpec.group. cbn [MacroSpec.listed]. norm. }
  pose proof (mesh_top (useM x b) c (callM x b (someb xs) (someb ys)) [O 40] xs ys (useM_ok x b) Hc Hsep Hx Lx Hy Ly (topM_ok x b (someb xs) (someb ys))) as C.
  apply closed_becomes in C. rewrite flat_40, Eo in C. set (V := put40 (vtop c xs ys) _) in *.
  assert (Vs : flat V (s_in x) = sep) by (unfold V, vtop; rewrite flat_put40 by (destruct x; reflexivity); rewrite flat_outM by (destruct x; reflexivity); apply (Es c eq_refl eq_refl)).
  assert (Va : flat V (a_in b) = a) by (unfold V, vtop; rewrite flat_put40 by (destruct b; reflexivity); rewrite flat_outM by (destruct b; reflexivity); apply (Ea c eq_refl)).
  unfold callM in C. rewrite flat_call, flat_args, Vs, Va in C.
  change (R TComma :: tuple (list15 (someb xs)) ++ R TComma :: tuple (list19 (someb ys))) with ([R TComma] ++ tuple (list15 (someb xs)) ++ [R TComma] ++ tuple (list19 (someb ys))) in C.
  rewrite !flat_app, !flat_tuple, flat_list15, flat_list19 in C by reflexivity. rewrite use_called, (listed_commas xs), (listed_commas ys). exact C.
Qed.
Lemma square_becomes : forall sep bet m a xs, MacroSpec.separates sep bet -> MacroSpec.plain m -> MacroSpec.argument a -> Forall MacroSpec.value xs -> (length xs <= 63)%nat ->
  MacroSpec.becomes (MacroSpec.macro_use (str "H2PP_FULLMESH") [sep; m; a; MacroSpec.group (MacroSpec.listed xs)]) (later_rows bet (callof4 m a) xs 0 xs).
Proof.
  intros sep bet m a xs Hs Hm Ha Hx Lx. apply values_fit in Hx. destruct (separators _ _ Hs) as (x & s1 & s2 & F1 & F2 & Es). destruct (arguments _ Ha) as (b & a1 & Fa & Ea).
  set (c := cF s1 s2 m a1 [number 0] [number 0]).
  assert (Hc : forall k, fits table (kindM k) (c k)) by (apply cM_ok; auto; [apply plain_fits; exact Hm|apply number_fits|apply number_fits]).
  assert (Hsep : Closed base (called n_unparen (flat c (m_sep (useM x b)))) (flat c (m_between (useM x b)))) by (apply sep_closed; [exact F1|exact F2]).
  assert (Eo : rows (useM x b) c xs 0 xs = later_rows bet (callof4 m a) xs 0 xs).
  { apply rows_are; [apply (Es c eq_refl eq_refl)|]. intros i j x' y'. unfold out4.
    change (flat (vM c [] i j [] x' [y']) (m_out (useM x b))) with (m ++ TLp :: flat (vM c [] i j [] x' [y']) (a_in b ++ [R TComma; O 13; R TComma; O 20; R TComma; O 25; R TComma; O 23; R TRp])).
    rewrite flat_app, flat_outM by (destruct b; reflexivity). rewrite (Ea c eq_refl). unfold callof4, MacroSpec.applied, MacroSpec.group. cbn [MacroSpec.listed]. norm. }
  pose proof (square_top (useM x b) c (callS x b (someb xs)) [O 40] xs (useM_ok x b) Hc Hsep Hx Lx (topS_ok x b (someb xs))) as C.
  apply closed_becomes in C. rewrite flat_40, Eo in C. set (V := put40 (vtop c xs xs) _) in *.
  assert (Vs : flat V (s_in x) = sep) by (unfold V, vtop; rewrite flat_put40 by (destruct x; reflexivity); rewrite flat_outM by (destruct x; reflexivity); apply (Es c eq_refl eq_refl)).
  assert (Va : flat V (a_in b) = a) by (unfold V, vtop; rewrite flat_put40 by (destruct b; reflexivity); rewrite flat_outM by (destruct b; reflexivity); apply (Ea c eq_refl)).
  unfold callS in C. rewrite flat_call, flat_args, Vs, Va in C.
  change (R TComma :: tuple (list15 (someb xs))) with ([R TComma] ++ tuple (list15 (someb xs))) in C.
  rewrite !flat_app, !flat_tuple, flat_list15 in C by reflexivity. rewrite use_called, (listed_commas xs). exact C.
Qed.

(** cases and calls for each pair *)
Definition headCs (t : bool) : bytes := if t then str "template <typename x, typename y> static void" else str "template <typename Tx, typename Ty> static void".
Definition paramCs (t : bool) : bytes := if t then str "()" else str "(Tx x, Ty y)".
Definition caseof4 (p q : list tok) (t : bool) (i j : nat) (x y : list tok) : list tok := MacroSpec.case_of p q (dots i ++ dots j) [x; y] t.
Definition cM2 (p q : list tok) : nat -> list tok := cF [number 0] [] [number 0] [number 0] p q.
Lemma cM2_ok : forall p q, value p -> value q -> forall k, fits table (kindM k) (cM2 p q k).
Proof. intros p q Hp Hq. apply cM_ok; auto; [exact (dummy_fits 0)|split; [constructor|reflexivity]|exact (dummy_fits 0)|apply number_fits]. Qed.
Lemma caseof4_out : forall t p q i j x y, out4 (useCs t) (cM2 p q) i j x y = caseof4 p q t i j x y.
Proof.
  intros t p q i j x y. unfold caseof4, MacroSpec.case_of, MacroSpec.applied, MacroSpec.group, dots. cbn [MacroSpec.listed]. destruct t.
  - change (out4 (useCs true) (cM2 p q) i j x y) with (t_case :: TLp :: q ++ idx i :: t_dot :: idx j :: t_dot :: x ++ TComma :: y ++ TRp :: t_lb :: p ++ t_lt :: x ++ TComma :: y ++ [t_gt; TLp; TRp; t_semi; t_rb]). norm.
  - change (out4 (useCs false) (cM2 p q) i j x y) with (t_case :: TLp :: q ++ idx i :: t_dot :: idx j :: t_dot :: x ++ TComma :: y ++ TRp :: t_lb :: p ++ TLp :: x ++ TComma :: y ++ [TRp; t_semi; t_rb]). norm.
Qed.
Definition casess_text (t : bool) (p l : list tok) : list tok :=
  MacroSpec.template (headCs t) p (paramCs t) ++ MacroSpec.punct 59 :: l ++ MacroSpec.punct 59 :: MacroSpec.template (headCs t) p (paramCs t).
Lemma casesCs_flat : forall t p v l, v 30%nat = p -> flat (put40 v l) (casesCs t) = casess_text t p l.
Proof.
  intros t p v l E. set (V := put40 v l). unfold casesCs, casess_text, MacroSpec.template. rewrite !flat_app.
  assert (D : flat V (fst (declCs t)) = MacroSpec.words (headCs t) /\ flat V (O 30 :: snd (declCs t)) = p ++ MacroSpec.words (paramCs t)).
  { destruct t; (split; [vm_compute; reflexivity|]); change (flat V (O 30 :: snd (declCs ?t))) with (v 30%nat ++ flat V (snd (declCs t))); rewrite E; f_equal; vm_compute; reflexivity. }
  destruct D as [D1 D2]. rewrite D1, D2.
  change (R t_semi :: O 40 :: R t_semi :: fst (declCs t) ++ O 30 :: snd (declCs t)) with ([R t_semi] ++ [O 40] ++ [R t_semi] ++ fst (declCs t) ++ O 30 :: snd (declCs t)). rewrite !flat_app, D1, D2. unfold V at 2. rewrite flat_40.
  change (flat V [R t_semi]) with [t_semi]. norm.
Qed.
Lemma casess_become : forall t p q xs ys, MacroSpec.value p -> MacroSpec.value q -> Forall MacroSpec.value xs -> (length xs <= 63)%nat -> Forall MacroSpec.value ys -> (length ys <= 63)%nat ->
  MacroSpec.becomes (MacroSpec.macro_use (n_casess t) [p; q; MacroSpec.group (MacroSpec.listed xs); MacroSpec.group (MacroSpec.listed ys)]) (casess_text t p (later_rows [] (caseof4 p q t) ys 0 xs)).
Proof.
  intros t p q xs ys Hp Hq Hx Lx Hy Ly. apply values_fit in Hx, Hy. apply value_fits in Hp, Hq. pose proof (cM2_ok p q Hp Hq) as Hc.
  pose proof (mesh_top (useCs t) (cM2 p q) (call (O 30 :: R TComma :: O 31 :: R TComma :: tuple (list15 (someb xs)) ++ R TComma :: tuple (list19 (someb ys))) (n_casess t)) (casesCs t) xs ys (useCs_ok t) Hc unparen_none Hx Lx Hy Ly (topCs_ok t (someb xs) (someb ys))) as C.
  apply closed_becomes in C. rewrite (rows_are (useCs t) (cM2 p q) [] (caseof4 p q t) eq_refl (caseof4_out t p q)) in C. rewrite flat_call in C. rewrite (casesCs_flat t p (vtop (cM2 p q) xs ys) _ eq_refl) in C. set (V := put40 _ _) in *.
  change (O 30 :: R TComma :: O 31 :: R TComma :: tuple (list15 (someb xs)) ++ R TComma :: tuple (list19 (someb ys))) with ([O 30; R TComma; O 31; R TComma] ++ tuple (list15 (someb xs)) ++ [R TComma] ++ tuple (list19 (someb ys))) in C.
  rewrite !flat_app, !flat_tuple, flat_list15, flat_list19 in C by reflexivity. change (flat V [O 30; R TComma; O 31; R TComma]) with (p ++ TComma :: q ++ [TComma]) in C.
  rewrite use_called, (listed_commas xs), (listed_commas ys).
  replace (commas [p; q; MacroSpec.group (commas xs); MacroSpec.group (commas ys)]) with ((p ++ TComma :: q ++ [TComma]) ++ (TLp :: commas xs ++ [TRp]) ++ flat V [R TComma] ++ TLp :: commas ys ++ [TRp]); [exact C|].
  change (commas [p; q; MacroSpec.group (commas xs); MacroSpec.group (commas ys)]) with (p ++ TComma :: q ++ TComma :: MacroSpec.group (commas xs) ++ TComma :: MacroSpec.group (commas ys)). unfold MacroSpec.group. change (flat V [R TComma]) with [TComma]. norm.
Qed.
Lemma casess_square : forall t p q xs, MacroSpec.value p -> MacroSpec.value q -> Forall MacroSpec.value xs -> (length xs <= 63)%nat ->
  MacroSpec.becomes (MacroSpec.macro_use (n_casess t) [p; q; MacroSpec.group (MacroSpec.listed xs)]) (casess_text t p (later_rows [] (caseof4 p q t) xs 0 xs)).
Proof.
  intros t p q xs Hp Hq Hx Lx. apply values_fit in Hx. apply value_fits in Hp, Hq. pose proof (cM2_ok p q Hp Hq) as Hc.
  pose proof (square_top (useCs t) (cM2 p q) (call (O 30 :: R TComma :: O 31 :: R TComma :: tuple (list15 (someb xs))) (n_casess t)) (casesCs t) xs (useCs_ok t) Hc unparen_none Hx Lx (topCs1_ok t (someb xs))) as C.
  apply closed_becomes in C. rewrite (rows_are (useCs t) (cM2 p q) [] (caseof4 p q t) eq_refl (caseof4_out t p q)) in C. rewrite flat_call in C. rewrite (casesCs_flat t p (vtop (cM2 p q) xs xs) _ eq_refl) in C. set (V := put40 _ _) in *.
  change (O 30 :: R TComma :: O 31 :: R TComma :: tuple (list15 (someb xs))) with ([O 30; R TComma; O 31; R TComma] ++ tuple (list15 (someb xs))) in C.
  rewrite !flat_app, !flat_tuple, flat_list15 in C by reflexivity. change (flat V [O 30; R TComma; O 31; R TComma]) with (p ++ TComma :: q ++ [TComma]) in C.
  rewrite use_called, (listed_commas xs).
  replace (commas [p; q; MacroSpec.group (commas xs)]) with ((p ++ TComma :: q ++ [TComma]) ++ (TLp :: commas xs ++ [TRp])); [exact C|].
  change (commas [p; q; MacroSpec.group (commas xs)]) with (p ++ TComma :: q ++ TComma :: MacroSpec.group (commas xs)). unfold MacroSpec.group. norm.
Qed.
Definition callxy (p : list tok) (_ _ : nat) (x y : list tok) : list tok := MacroSpec.applied p [x; y].
Lemma callxy_out : forall p i j x y, out4 useEs (cM2 p [number 0]) i j x y = callxy p i j x y.
Proof. intros. unfold callxy, MacroSpec.applied, MacroSpec.group. cbn [MacroSpec.listed]. change (out4 useEs (cM2 p [number 0]) i j x y) with (p ++ TLp :: x ++ TComma :: y ++ [TRp]). norm. Qed.
Lemma eachs_become : forall p xs ys, MacroSpec.value p -> Forall MacroSpec.value xs -> (length xs <= 63)%nat -> Forall MacroSpec.value ys -> (length ys <= 63)%nat ->
  MacroSpec.becomes (MacroSpec.macro_use (str "H2Fullmesh") [p; MacroSpec.group (MacroSpec.listed xs); MacroSpec.group (MacroSpec.listed ys)]) (later_rows [] (callxy p) ys 0 xs).
Proof.
  intros p xs ys Hp Hx Lx Hy Ly. apply values_fit in Hx, Hy. apply value_fits in Hp. pose proof (cM2_ok p [number 0] Hp (number_fits 0)) as Hc.
  pose proof (mesh_top useEs (cM2 p [number 0]) (call (O 30 :: R TComma :: tuple (list15 (someb xs)) ++ R TComma :: tuple (list19 (someb ys))) n_meshes) [O 40] xs ys useEs_ok Hc unparen_none Hx Lx Hy Ly (topEs_ok (someb xs) (someb ys))) as C.
  apply closed_becomes in C. rewrite flat_40, (rows_are useEs (cM2 p [number 0]) [] (callxy p) eq_refl (callxy_out p)) in C. rewrite flat_call in C. set (V := put40 _ _) in *.
  change (O 30 :: R TComma :: tuple (list15 (someb xs)) ++ R TComma :: tuple (list19 (someb ys))) with ([O 30; R TComma] ++ tuple (list15 (someb xs)) ++ [R TComma] ++ tuple (list19 (someb ys))) in C.
  rewrite !flat_app, !flat_tuple, flat_list15, flat_list19 in C by reflexivity. change (flat V [O 30; R TComma]) with (p ++ [TComma]) in C. rewrite use_called, (listed_commas xs), (listed_commas ys).
  replace (commas [p; MacroSpec.group (commas xs); MacroSpec.group (commas ys)]) with ((p ++ [TComma]) ++ (TLp :: commas xs ++ [TRp]) ++ flat V [R TComma] ++ TLp :: commas ys ++ [TRp]); [exact C|].
  change (commas [p; MacroSpec.group (commas xs); MacroSpec.group (commas ys)]) with (p ++ TComma :: MacroSpec.group (commas xs) ++ TComma :: MacroSpec.group (commas ys)). unfold MacroSpec.group. change (flat V [R TComma]) with [TComma]. norm.
Qed.
Lemma eachs_square : forall p xs, MacroSpec.value p -> Forall MacroSpec.value xs -> (length xs <= 63)%nat ->
  MacroSpec.becomes (MacroSpec.macro_use (str "H2Fullmesh") [p; MacroSpec.group (MacroSpec.listed xs)]) (later_rows [] (callxy p) xs 0 xs).
Proof.
  intros p xs Hp Hx Lx. apply values_fit in Hx. apply value_fits in Hp. pose proof (cM2_ok p [number 0] Hp (number_fits 0)) as Hc.
  pose proof (square_top useEs (cM2 p [number 0]) (call (O 30 :: R TComma :: tuple (list15 (someb xs))) n_meshes) [O 40] xs useEs_ok Hc unparen_none Hx Lx (topEs1_ok (someb xs))) as C.
  apply closed_becomes in C. rewrite flat_40, (rows_are useEs (cM2 p [number 0]) [] (callxy p) eq_refl (callxy_out p)) in C. rewrite flat_call in C. set (V := put40 _ _) in *.
  change (O 30 :: R TComma :: tuple (list15 (someb xs))) with ([O 30; R TComma] ++ tuple (list15 (someb xs))) in C.
  rewrite !flat_app, !flat_tuple, flat_list15 in C by reflexivity. change (flat V [O 30; R TComma]) with (p ++ [TComma]) in C. rewrite use_called, (listed_commas xs).
  replace (commas [p; MacroSpec.group (commas xs)]) with ((p ++ [TComma]) ++ (TLp :: commas xs ++ [TRp])); [exact C|].
  change (commas [p; MacroSpec.group (commas xs)]) with (p ++ TComma :: MacroSpec.group (commas xs)). unfold MacroSpec.group. norm.
Qed.

(** *** counts and choices *)
Definition calli (m a : list tok) (i : nat) : list tok := MacroSpec.applied m [a; [MacroSpec.numeral i]].
Lemma repeat_becomes : forall sep bet m a n, MacroSpec.separates sep bet -> MacroSpec.plain m -> MacroSpec.argument a -> (n <= 32)%nat ->
  MacroSpec.becomes (MacroSpec.macro_use (str "H2PP_REPEAT") [sep; m; a; [MacroSpec.numeral n]]) (MacroSpec.joined bet (map (calli m a) (seq 0 n))).
Proof.
  intros sep bet m a n Hs Hm Ha L. destruct (separators _ _ Hs) as (x & s1 & s2 & F1 & F2 & Es). destruct (arguments _ Ha) as (b & a1 & Fa & Ea).
  set (c := fun k => if Nat.eqb k 19 then [number 0] else cF s1 s2 m a1 [number 0] [number 0] k).
  assert (Hc : forall k, fits table (kindF k) (c k)) by (apply cF_ok; auto; [apply plain_fits; exact Hm|apply number_fits|apply number_fits]).
  assert (Hx : Closed base (called n_unparen (flat c (u_sep (useR x b)))) (flat c (u_between (useR x b)))) by (apply sep_closed; [exact F1|exact F2]).
  assert (Eo : forall k, (k <= 32)%nat -> reps (useR x b) c k = MacroSpec.joined bet (map (calli m a) (seq 0 k))).
  { induction k as [|k IH]; intro Lk; [reflexivity|]. cbn [reps]. rewrite IH by lia. rewrite seq_S, map_app. cbn [map Nat.add].
    assert (O1 : outR (useR x b) c k = calli m a k).
    { unfold outR. change (flat (vR c (S k)) (u_out (useR x b))) with (m ++ TLp :: flat (vR c (S k)) (a_in b ++ [R TComma; O 14; R TRp])). rewrite flat_app, flat_outerR by (destruct b; reflexivity). rewrite (Ea c eq_refl).
      unfold calli, MacroSpec.applied, MacroSpec.group. cbn [MacroSpec.listed]. change (flat (vR c (S k)) [R TComma; O 14; R TRp]) with [TComma; idx k; TRp]. change (idx k) with (shown k). rewrite shown_small by lia. norm. }
    rewrite O1. unfold betweenR. destruct k as [|k]; [cbn; rewrite app_nil_r; reflexivity|].
    cbn [Nat.eqb]. change (flat c (u_between (useR x b))) with (flat c (s_out x)). rewrite (proj2 (Es c eq_refl eq_refl)). change (seq 0 (S k)) with (0%nat :: seq 1 k). cbn [map app MacroSpec.joined]. rewrite flat_map_app. cbn [flat_map]. rewrite app_nil_r, <- !app_assoc. reflexivity. }
  pose proof (repeat_top (useR x b) c (callR x b) [O 40] n (useR_ok x b) Hc Hx L (topR_ok x b)) as C. apply closed_becomes in C. rewrite flat_40, Eo in C by exact L. set (V := put40 _ _) in *.
  assert (Vs : flat V (s_in x) = sep) by (unfold V; rewrite flat_put40 by (destruct x; reflexivity); rewrite flat_outerR by (destruct x; reflexivity); apply (Es c eq_refl eq_refl)).
  assert (Va : flat V (a_in b) = a) by (unfold V; rewrite flat_put40 by (destruct b; reflexivity); rewrite flat_outerR by (destruct b; reflexivity); apply (Ea c eq_refl)).
  unfold callR in C. rewrite flat_call, flat_args, Vs, Va in C. change (flat V [R TComma; O 13]) with [TComma; shown n] in C. rewrite shown_small in C by exact L. rewrite use_called. exact C.
Qed.
