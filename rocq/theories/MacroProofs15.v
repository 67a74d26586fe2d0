(** Proofs about the list macros: the statements in the words of the specification, and where they stop to hold. *)
From Coq Require Import List NArith Bool Arith Lia DecimalString.
From Verif Require Import Base MacroModel MacroProofs MacroProofs2 MacroProofs3 MacroProofs4 MacroProofs5 MacroProofs6 MacroProofs7 MacroProofs8 MacroProofs9 MacroProofs10 MacroProofs11 MacroProofs12 MacroProofs13 MacroProofs14 MacroSpec.
Import ListNotations.
Local Open Scope N_scope.
Local Arguments lookup : simpl never.
Local Arguments bytes_eqb : simpl never.
Local Opaque sk find.

Lemma join_ext : forall A between (f g : nat * A -> list tok) n vs, (forall i v, (i < n)%nat -> f (i, v) = g (i, v)) -> (length vs <= n)%nat ->
  joined between (map f (numbered vs)) = joined between (map g (numbered vs)).
Proof.
  intros A between f g n vs H L. f_equal. apply map_ext_in. intros [i v] I. apply H. apply in_combine_l in I. apply in_seq in I. lia.
Qed.
Lemma pairs_ext : forall A between (f g : (nat * A) * (nat * A) -> list tok) n xs ys, (forall i x j y, (i < n)%nat -> (j < n)%nat -> f ((i, x), (j, y)) = g ((i, x), (j, y))) -> (length xs <= n)%nat -> (length ys <= n)%nat ->
  joined between (map f (pairs xs ys)) = joined between (map g (pairs xs ys)).
Proof.
  intros A between f g n xs ys H Lx Ly. f_equal. apply map_ext_in. intros p I. unfold pairs in I. apply in_flat_map in I. destruct I as ([i x] & I1 & I2). apply in_map_iff in I2. destruct I2 as ([j y] & <- & I2).
  apply in_combine_l, in_seq in I1. apply in_combine_l, in_seq in I2. apply H; lia.
Qed.
Lemma foreach_many : exists shown : nat -> tok, (forall i, (i <= 32)%nat -> shown i = numeral i) /\ (forall i, (32 < i)%nat -> exists n, shown i = TId n false) /\
  forall sep between m a vs, separates sep between -> plain m -> argument a -> Forall value vs -> (length vs <= 63)%nat ->
  becomes (macro_use (str "H2PP_FOREACH") (sep :: m :: a :: vs)) (joined between (map (fun iv => applied m [a; [shown (fst iv)]; snd iv]) (numbered vs))).
Proof.
  exists shown. split; [exact shown_small|]. split; [exact shown_big|]. intros sep between m a vs Hs Hm Ha Hv L. destruct (foreach_becomes sep between m a vs Hs Hm Ha Hv L) as [B _].
  rewrite later_joined in B. exact B.
Qed.
Lemma foreach_33 : forall sep between m a vs, separates sep between -> plain m -> argument a -> Forall value vs -> (length vs <= 33)%nat ->
  becomes (macro_use (str "H2PP_FOREACH") (sep :: m :: a :: vs)) (joined between (map (fun iv => applied m [a; [numeral (fst iv)]; snd iv]) (numbered vs))) /\
  (vs = [] -> becomes (macro_use (str "H2PP_FOREACH") [sep; m; a; []]) []).
Proof.
  intros sep between m a vs Hs Hm Ha Hv L. destruct (foreach_becomes sep between m a vs Hs Hm Ha Hv ltac:(lia)) as [B B0]. split; [|exact B0]. rewrite later_joined in B.
  rewrite (join_ext _ between (fun iv => applied m [a; [numeral (fst iv)]; snd iv]) (fun iv => callof m a (fst iv) (snd iv)) 33); [exact B| |exact L].
  intros i v Li. unfold callof. rewrite shown_small by (cbn [fst]; lia). reflexivity.
Qed.
Lemma fullmesh_33 : forall sep between m a xs ys, separates sep between -> plain m -> argument a -> Forall value xs -> Forall value ys -> (length xs <= 33)%nat -> (length ys <= 33)%nat ->
  becomes (macro_use (str "H2PP_FULLMESH") [sep; m; a; group (listed xs); group (listed ys)])
    (joined between (map (fun p => applied m [a; [numeral (fst (fst p))]; [numeral (fst (snd p))]; snd (fst p); snd (snd p)]) (pairs xs ys))).
Proof.
  intros sep between m a xs ys Hs Hm Ha Hx Hy Lx Ly. pose proof (mesh_becomes sep between m a xs ys Hs Hm Ha Hx ltac:(lia) Hy ltac:(lia)) as B. rewrite rows_joined in B.
  rewrite (pairs_ext _ between (fun p => applied m [a; [numeral (fst (fst p))]; [numeral (fst (snd p))]; snd (fst p); snd (snd p)]) (pf (callof4 m a)) 33); [exact B| |exact Lx|exact Ly].
  intros i x j y Li Lj. unfold pf, callof4. cbn [fst snd]. rewrite !shown_small by lia. reflexivity.
Qed.
Lemma square_33 : forall sep between m a xs, separates sep between -> plain m -> argument a -> Forall value xs -> (length xs <= 33)%nat ->
  becomes (macro_use (str "H2PP_FULLMESH") [sep; m; a; group (listed xs)])
    (joined between (map (fun p => applied m [a; [numeral (fst (fst p))]; [numeral (fst (snd p))]; snd (fst p); snd (snd p)]) (pairs xs xs))).
Proof.
  intros sep between m a xs Hs Hm Ha Hx Lx. pose proof (square_becomes sep between m a xs Hs Hm Ha Hx ltac:(lia)) as B. rewrite rows_joined in B.
  rewrite (pairs_ext _ between (fun p => applied m [a; [numeral (fst (fst p))]; [numeral (fst (snd p))]; snd (fst p); snd (snd p)]) (pf (callof4 m a)) 33); [exact B| |exact Lx|exact Lx].
  intros i x j y Li Lj. unfold pf, callof4. cbn [fst snd]. rewrite !shown_small by lia. reflexivity.
Qed.
Lemma joined_nil : forall l, joined [] l = concat l.
Proof. intros [|a r]; [reflexivity|]. cbn [joined concat]. f_equal. Qed.
Lemma cases_33 : forall test prefix vs, value test -> value prefix -> Forall value vs -> (length vs <= 33)%nat ->
  becomes (macro_use (str "__H2CASES1") [test; prefix; group (listed vs)])
    (template (str "template <typename T> static void") test (str "(T x)") ++ punct 59 ::
     concat (map (fun iv => case_of test prefix (dotted (fst iv)) [snd iv] false) (numbered vs)) ++ punct 59 :: template (str "template <typename T> static void") test (str "(T x)")) /\
  becomes (macro_use (str "__H2CASES_T1") [test; prefix; group (listed vs)])
    (template (str "template <typename x> static void") test (str "()") ++ punct 59 ::
     concat (map (fun iv => case_of test prefix (dotted (fst iv)) [snd iv] true) (numbered vs)) ++ punct 59 :: template (str "template <typename x> static void") test (str "()")).
Proof.
  intros p q vs Hp Hq Hv L.
  assert (E : forall t, later [] (fun i v => case_of p q (dots i) [v] t) 0 vs = concat (map (fun iv => case_of p q (dotted (fst iv)) [snd iv] t) (numbered vs))).
  { intro t. rewrite later_joined, <- joined_nil. apply (join_ext _ [] _ _ 33); [|exact L]. intros i v Li. cbn [fst snd]. unfold dots. rewrite shown_small by lia. reflexivity. }
  pose proof (cases_become false p q vs Hp Hq Hv ltac:(lia)) as B1. pose proof (cases_become true p q vs Hp Hq Hv ltac:(lia)) as B2. rewrite E in B1, B2. split; [exact B1|exact B2].
Qed.
Lemma text_false : forall p l, casess_text false p l = template (str "template <typename Tx, typename Ty> static void") p (str "(Tx x, Ty y)") ++ punct 59 :: l ++ punct 59 :: template (str "template <typename Tx, typename Ty> static void") p (str "(Tx x, Ty y)").
Proof. intros. unfold casess_text, headCs, paramCs. reflexivity. Qed.
Lemma text_true : forall p l, casess_text true p l = template (str "template <typename x, typename y> static void") p (str "()") ++ punct 59 :: l ++ punct 59 :: template (str "template <typename x, typename y> static void") p (str "()").
Proof. intros. unfold casess_text, headCs, paramCs. reflexivity. Qed.
Lemma ns_false : n_casess false = str "__H2CASESS1". Proof. vm_compute. reflexivity. Qed.
Lemma ns_true : n_casess true = str "__H2CASESS_T1". Proof. vm_compute. reflexivity. Qed.
Lemma casess_33 : forall test prefix xs ys, value test -> value prefix -> Forall value xs -> Forall value ys -> (length xs <= 33)%nat -> (length ys <= 33)%nat ->
  becomes (macro_use (str "__H2CASESS1") [test; prefix; group (listed xs); group (listed ys)])
    (template (str "template <typename Tx, typename Ty> static void") test (str "(Tx x, Ty y)") ++ punct 59 ::
     concat (map (fun p => case_of test prefix (dotted (fst (fst p)) ++ dotted (fst (snd p))) [snd (fst p); snd (snd p)] false) (pairs xs ys)) ++ punct 59 :: template (str "template <typename Tx, typename Ty> static void") test (str "(Tx x, Ty y)")) /\
  becomes (macro_use (str "__H2CASESS_T1") [test; prefix; group (listed xs); group (listed ys)])
    (template (str "template <typename x, typename y> static void") test (str "()") ++ punct 59 ::
     concat (map (fun p => case_of test prefix (dotted (fst (fst p)) ++ dotted (fst (snd p))) [snd (fst p); snd (snd p)] true) (pairs xs ys)) ++ punct 59 :: template (str "template <typename x, typename y> static void") test (str "()")).
Proof.
  intros p q xs ys Hp Hq Hx Hy Lx Ly.
  assert (E : forall t, later_rows [] (caseof4 p q t) ys 0 xs = concat (map (fun r => case_of p q (dotted (fst (fst r)) ++ dotted (fst (snd r))) [snd (fst r); snd (snd r)] t) (pairs xs ys))).
  { intro t. rewrite rows_joined, <- joined_nil. apply (pairs_ext _ [] _ _ 33); [|exact Lx|exact Ly]. intros i x j y Li Lj. unfold pf, caseof4, dots. cbn [fst snd]. rewrite !shown_small by lia. reflexivity. }
  pose proof (casess_become false p q xs ys Hp Hq Hx ltac:(lia) Hy ltac:(lia)) as B1. pose proof (casess_become true p q xs ys Hp Hq Hx ltac:(lia) Hy ltac:(lia)) as B2. rewrite E in B1, B2. rewrite text_false, ns_false in B1. rewrite text_true, ns_true in B2. split; [exact B1|exact B2].
Qed.
Lemma casess_square_33 : forall test prefix xs, value test -> value prefix -> Forall value xs -> (length xs <= 33)%nat ->
  becomes (macro_use (str "__H2CASESS1") [test; prefix; group (listed xs)])
    (template (str "template <typename Tx, typename Ty> static void") test (str "(Tx x, Ty y)") ++ punct 59 ::
     concat (map (fun p => case_of test prefix (dotted (fst (fst p)) ++ dotted (fst (snd p))) [snd (fst p); snd (snd p)] false) (pairs xs xs)) ++ punct 59 :: template (str "template <typename Tx, typename Ty> static void") test (str "(Tx x, Ty y)")) /\
  becomes (macro_use (str "__H2CASESS_T1") [test; prefix; group (listed xs)])
    (template (str "template <typename x, typename y> static void") test (str "()") ++ punct 59 ::
     concat (map (fun p => case_of test prefix (dotted (fst (fst p)) ++ dotted (fst (snd p))) [snd (fst p); snd (snd p)] true) (pairs xs xs)) ++ punct 59 :: template (str "template <typename x, typename y> static void") test (str "()")).
Proof.
  intros p q xs Hp Hq Hx Lx.
  assert (E : forall t, later_rows [] (caseof4 p q t) xs 0 xs = concat (map (fun r => case_of p q (dotted (fst (fst r)) ++ dotted (fst (snd r))) [snd (fst r); snd (snd r)] t) (pairs xs xs))).
  { intro t. rewrite rows_joined, <- joined_nil. apply (pairs_ext _ [] _ _ 33); [|exact Lx|exact Lx]. intros i x j y Li Lj. unfold pf, caseof4, dots. cbn [fst snd]. rewrite !shown_small by lia. reflexivity. }
  pose proof (casess_square false p q xs Hp Hq Hx ltac:(lia)) as B1. pose proof (casess_square true p q xs Hp Hq Hx ltac:(lia)) as B2. rewrite E in B1, B2. rewrite text_false, ns_false in B1. rewrite text_true, ns_true in B2. split; [exact B1|exact B2].
Qed.
Lemma each_63 : forall f vs, value f -> Forall value vs -> (length vs <= 63)%nat -> becomes (macro_use (str "H2Foreach") [f; group (listed vs)]) (concat (map (fun v => applied f [v]) vs)).
Proof.
  intros f vs Hf Hv L. pose proof (each_becomes f vs Hf Hv L) as B.
  assert (E : forall l i, later [] (fun (_ : nat) v => applied f [v]) i l = concat (map (fun v => applied f [v]) l)).
  { induction l as [|v l IH]; intro i; [reflexivity|]. cbn [later map concat]. rewrite IH. destruct (Nat.eqb i 0); reflexivity. }
  rewrite E in B. exact B.
Qed.
Lemma callxy_grid : forall f ys xs, later_rows [] (callxy f) ys 0 xs = concat (map (fun p => applied f [fst p; snd p]) (list_prod xs ys)).
Proof.
  intros f ys xs. assert (R1 : forall x l i j, later_row [] (callxy f) i j x l = concat (map (fun p => applied f [fst p; snd p]) (map (pair x) l))).
  { intro x. induction l as [|y l IH]; intros i j; [reflexivity|]. cbn [later_row map concat fst snd]. rewrite IH. destruct (Nat.eqb i 0 && Nat.eqb j 0); reflexivity. }
  generalize 0%nat. induction xs as [|x xs IH]; intro i; [reflexivity|]. cbn [later_rows list_prod]. rewrite IH, R1, map_app, concat_app. reflexivity.
Qed.
Lemma eachs_63 : forall f xs ys, value f -> Forall value xs -> Forall value ys -> (length xs <= 63)%nat -> (length ys <= 63)%nat ->
  becomes (macro_use (str "H2Fullmesh") [f; group (listed xs); group (listed ys)]) (concat (map (fun p => applied f [fst p; snd p]) (list_prod xs ys))) /\
  becomes (macro_use (str "H2Fullmesh") [f; group (listed xs)]) (concat (map (fun p => applied f [fst p; snd p]) (list_prod xs xs))).
Proof.
  intros f xs ys Hf Hx Hy Lx Ly. pose proof (eachs_become f xs ys Hf Hx Lx Hy Ly) as B1. pose proof (eachs_square f xs Hf Hx Lx) as B2. rewrite callxy_grid in B1, B2. split; [exact B1|exact B2].
Qed.

(** *** limits *)
Lemma becomes_one : forall s a b, becomes s a -> becomes s b -> a = b.
Proof.
  intros s a b Ha Hb. destruct (Ha [] [] ltac:(constructor) ltac:(constructor)) as [f F]. destruct (Hb [] [] ltac:(constructor) ltac:(constructor)) as [g G].
  specialize (F (Nat.max f g) ltac:(lia)). specialize (G (Nat.max f g) ltac:(lia)). rewrite F in G. injection G as G. cbn [app] in G. rewrite !app_nil_r in G. exact G.
Qed.
Lemma new_name : forall n, has n (map fst defined) = false -> foreign n.
Proof. intros n H I. apply has_in in I. congruence. Qed.
Definition nm (s : bytes) : list tok := [name s].
Lemma name_plain : forall n, has n (map fst defined) = false -> plain (nm n).
Proof. intros n H. split; [split; [apply piece_word; [split; [reflexivity|apply new_name; exact H]|constructor]|discriminate]|discriminate]. Qed.
Lemma num_value : forall x, value [TNum x].
Proof. intro x. split; [apply piece_word; [exact Logic.I|constructor]|discriminate]. Qed.
Lemma limit_34 : exists vs, Forall value vs /\ length vs = 34%nat /\
  ~ becomes (macro_use (str "H2PP_FOREACH") ([] :: nm (str "M") :: [] :: vs)) (joined [] (map (fun iv => applied (nm (str "M")) [[]; [numeral (fst iv)]; snd iv]) (numbered vs))).
Proof.
  exists (repeat [numeral 7] 34). split; [apply Forall_forall; intros v I; apply repeat_spec in I; subst v; apply num_value|]. split; [reflexivity|]. intro B.
  assert (P : plain (nm (str "M"))) by (apply name_plain; vm_compute; reflexivity).
  destruct (foreach_becomes [] [] (nm (str "M")) [] (repeat [numeral 7] 34) sep_none P (or_introl eq_refl)) as [B1 _].
  - apply Forall_forall; intros v I; apply repeat_spec in I; subst v; apply num_value.
  - vm_compute. lia.
  - pose proof (becomes_one _ _ _ B B1) as E. vm_compute in E. discriminate E.
Qed.
Definition one_two : list (list tok) := [[numeral 1]; [numeral 2]].
Lemma bare : ~ becomes (macro_use (str "H2PP_REMOVE_PARENTHESES_IF") one_two) (listed one_two).
Proof.
  intro B. assert (C : Closed base (macro_use (str "H2PP_REMOVE_PARENTHESES_IF") one_two) (lex [] (str "_H2PP_REMOVE_PARENTHESES_IF__H2PP_IF_ELSE_2(0,0)(1,2)"))) by (apply runb_closed; vm_cast_no_check (eq_refl true)).
  apply closed_becomes in C. pose proof (becomes_one _ _ _ B C) as E. vm_compute in E. discriminate E.
Qed.
