(** Proofs about the list macros: the statements. *)
From Coq Require Import List NArith Bool Arith Lia DecimalString.
From Verif Require Import Base MacroModel MacroProofs MacroProofs2 MacroProofs3 MacroProofs4 MacroProofs5 MacroProofs6 MacroProofs7 MacroProofs8 MacroProofs9 MacroProofs10 MacroProofs11 MacroProofs12.
From Verif Require MacroSpec.
Import ListNotations.
Local Open Scope N_scope.
Local Arguments lookup : simpl never.
Local Arguments bytes_eqb : simpl never.
Local Opaque sk find.

(** texts of the statement are texts of the proofs *)
Lemma table_is : table = defined. Proof. vm_compute. reflexivity. Qed.
Lemma look_out : forall tb n, ~ In n (map fst tb) -> lookup tb n = None.
Proof.
  induction tb as [|[k m] tb IH]; intros n H; [reflexivity|]. change (lookup ((k, m) :: tb) n) with (if bytes_eqb n k then Some m else lookup tb n). destruct (bytes_eqb n k) eqn:E; [|apply IH; intro I; apply H; right; exact I].
  apply bytes_eqb_eq in E. exfalso. apply H. left. symmetry. exact E.
Qed.
Lemma foreign_calm : forall n b, MacroSpec.foreign n -> calm table (TId n b).
Proof. intros n [|] H; [exact Logic.I|]. cbn [calm]. rewrite table_is. apply look_out. exact H. Qed.
Lemma word_calm : forall t, MacroSpec.word t -> calm table t.
Proof. intros [n b|x| | | |x] H; try exact Logic.I. apply foreign_calm. apply H. Qed.
Lemma word_walk : forall c d t r, MacroSpec.word t -> walk c d (t :: r) = walk c d r.
Proof. intros c d [n b|x| | | |x] r H; try reflexivity; destruct H. Qed.
Lemma text_fits : forall ts, MacroSpec.text ts -> fits table Inn ts.
Proof.
  induction 1 as [|t r Hw _ [C W]|r _ [C W]|a r _ [C1 W1] _ [C2 W2]].
  - split; [constructor|reflexivity].
  - split; [constructor; [apply word_calm; exact Hw|exact C]|]. rewrite word_walk by exact Hw. exact W.
  - split; [constructor; [exact Logic.I|exact C]|exact W].
  - split; [constructor; [exact Logic.I|]; apply Forall_app; split; [exact C1|constructor; [exact Logic.I|exact C2]]|].
    cbn [walk]. rewrite (walk_app _ _ _ _ _ (walk_up_true _ _ 1 W1)). exact W2.
Qed.
Lemma piece_fits : forall ts, MacroSpec.piece ts -> Forall (calm table) ts /\ walk false 0 ts = Some 0%nat.
Proof.
  induction 1 as [|t r Hw _ [C W]|a r Ha _ [C2 W2]].
  - split; [constructor|reflexivity].
  - split; [constructor; [apply word_calm; exact Hw|exact C]|]. rewrite word_walk by exact Hw. exact W.
  - destruct (text_fits _ Ha) as [C1 W1]. split; [constructor; [exact Logic.I|]; apply Forall_app; split; [exact C1|constructor; [exact Logic.I|exact C2]]|].
    cbn [walk]. rewrite (walk_app _ _ _ _ _ (walk_deep _ _ _ 0 W1)). exact W2.
Qed.
Lemma value_fits : forall v, MacroSpec.value v -> value v.
Proof. intros v [P N]. destruct (piece_fits _ P) as [C W]. split; [exact C|split; [exact N|exact W]]. Qed.
Lemma plain_fits : forall v, MacroSpec.plain v -> fits table Plain v.
Proof. intros v [[P N] H]. destruct (piece_fits _ P) as [C W]. split; [exact C|]. split; [exact N|]. split; [exact W|]. destruct v as [|t v]; [contradiction|]. cbn. intro E. apply H. cbn. f_equal. exact E. Qed.
Lemma values_fit : forall vs, Forall MacroSpec.value vs -> Forall value vs.
Proof. intros vs H. eapply Forall_impl; [|exact H]. exact value_fits. Qed.
Lemma listed_commas : forall vs, MacroSpec.listed vs = commas vs.
Proof. induction vs as [|v [|w r] IH]; [reflexivity|reflexivity|]. change (v ++ TComma :: MacroSpec.listed (w :: r) = v ++ TComma :: commas (w :: r)). rewrite IH. reflexivity. Qed.
Lemma harmless_calm : forall t, MacroSpec.harmless t -> calm table t.
Proof. intros t [H | [-> | [-> | ->]]]; [apply word_calm; exact H| | |]; exact Logic.I. Qed.

Lemma closed_becomes : forall un s s', Closed un s s' -> MacroSpec.becomes s s'.
Proof.
  intros un s s' C before after Hb Ha.
  assert (E : Exp table [] (map Tok (before ++ s ++ after)) (before ++ s' ++ after)).
  { pose proof (closed_app un _ _ _ _ (closed_calm un before ltac:(eapply Forall_impl; [exact harmless_calm|exact Hb])) (closed_app un _ _ _ _ C (closed_calm un after ltac:(eapply Forall_impl; [exact harmless_calm|exact Ha])))) as D.
    pose proof (D [] [] [] ltac:(intros; split; reflexivity) (E_nil _ _)) as X. rewrite !app_nil_r in X. exact X. }
  destruct (Exp_all _ _ _ E) as [f F]. exists f. intros fuel L. unfold preprocess. rewrite <- table_is. apply F. exact L.
Qed.

(** *** lists *)
Lemma use_called : forall m args, MacroSpec.macro_use m args = called m (commas args).
Proof. intros. unfold MacroSpec.macro_use, MacroSpec.applied, MacroSpec.group, MacroSpec.name, called. rewrite listed_commas. reflexivity. Qed.
Lemma numeral_number : forall n, MacroSpec.numeral n = number n. Proof. reflexivity. Qed.
Lemma narg_becomes : forall vs, Forall MacroSpec.value vs -> (length vs <= 63)%nat -> MacroSpec.becomes (MacroSpec.macro_use (str "H2PP_NARG") vs) [MacroSpec.numeral (length vs)].
Proof.
  intros vs H L. rewrite use_called. destruct vs as [|w ws]; [exact (closed_becomes _ _ _ narg_nil)|]. apply (closed_becomes base). apply narg_list. split; [apply values_fit; exact H|exact L].
Qed.
Lemma is_empty_becomes : forall vs, Forall MacroSpec.value vs -> (length vs <= 63)%nat -> MacroSpec.becomes (MacroSpec.macro_use (str "H2PP_IS_EMPTY") vs) [MacroSpec.numeral (match vs with [] => 1 | _ => 0 end)].
Proof.
  intros vs H L. rewrite use_called. destruct vs as [|w ws]; [exact (closed_becomes _ _ _ empty_nil)|]. apply (closed_becomes base). apply empty_list. split; [apply values_fit; exact H|exact L].
Qed.
Lemma head_becomes : forall vs, Forall MacroSpec.value vs -> (length vs <= 63)%nat -> MacroSpec.becomes (MacroSpec.macro_use (str "H2PP_HEAD") vs) (hd [] vs).
Proof.
  intros vs H L. rewrite use_called. destruct vs as [|w ws]; [exact (closed_becomes _ _ _ head_none)|]. apply (closed_becomes base). apply head_list. split; [apply values_fit; exact H|exact L].
Qed.
Lemma tail_becomes : forall vs, Forall MacroSpec.value vs -> (length vs <= 63)%nat -> MacroSpec.becomes (MacroSpec.macro_use (str "H2PP_TAIL") vs) (MacroSpec.listed (tl vs)).
Proof.
  intros vs H L. rewrite use_called, (listed_commas (tl vs)). destruct vs as [|w ws]; [exact (closed_becomes _ _ _ tail_none)|]. apply (closed_becomes base). apply tail_list. split; [apply values_fit; exact H|exact L].
Qed.
Lemma last_becomes : forall vs, Forall MacroSpec.value vs -> (length vs <= 63)%nat -> MacroSpec.becomes (MacroSpec.macro_use (str "H2PP_LAST") vs) (last vs []).
Proof. intros vs H L. rewrite use_called. apply (closed_becomes outsL). apply last_top. split; [apply values_fit; exact H|exact L]. Qed.
Lemma unparen_becomes : forall s between, MacroSpec.separates s between -> MacroSpec.becomes (MacroSpec.macro_use (str "H2PP_REMOVE_PARENTHESES_IF") [s]) between.
Proof.
  intros s between H. rewrite use_called. apply (closed_becomes base). destruct H as [|s H|p H]; [exact unparen_none|apply unparen_plain; apply plain_fits; exact H|apply unparen_group; apply text_fits; exact H].
Qed.

Ltac norm := repeat (rewrite <- app_assoc; cbn [app]); rewrite ?app_nil_r; try reflexivity.
(** *** loops *)
Definition cF (s1 : list tok) (s2 : list tok) (m a p q : list tok) (k : nat) : list tok :=
  match k with 10%nat => s1 | 18%nat => s2 | 11%nat => m | 12%nat => a | 30%nat => p | 31%nat => q | _ => match kindM k with Inn => [] | _ => [number 0] end end.
Lemma fill : forall c, fits table c (match c with Inn => [] | _ => [number 0] end).
Proof. intros [| |]; [exact (dummy_fits 0)|apply number_fits|split; [constructor|reflexivity]]. Qed.
Lemma cM_ok : forall s1 s2 m a p q, fits table Plain s1 -> fits table Inn s2 -> fits table Plain m -> value a -> value p -> value q -> forall k, fits table (kindM k) (cF s1 s2 m a p q k).
Proof.
  intros s1 s2 m a p q H1 H2 H3 H4 H5 H6 k. assert (D : forall j, fits table (kindM j) (match kindM j with Inn => [] | _ => [number 0] end)) by (intro; apply fill).
  do 32 (destruct k as [|k]; [first [exact H1|exact H2|exact H3|exact H4|exact H5|exact H6|exact (D _)]|]). exact (D _).
Qed.
Lemma cF_ok : forall s1 s2 m a p q, fits table Plain s1 -> fits table Inn s2 -> fits table Plain m -> value a -> value p -> value q -> forall k, fits table (kindF k) (if Nat.eqb k 19 then [number 0] else cF s1 s2 m a p q k).
Proof.
  intros s1 s2 m a p q H1 H2 H3 H4 H5 H6 k. pose proof (cM_ok s1 s2 m a p q H1 H2 H3 H4 H5 H6 k) as C. destruct (Nat.eqb k 19) eqn:E; [apply Nat.eqb_eq in E; subst k; apply number_fits|].
  assert (K : kindM k = kindF k) by (do 19 (destruct k as [|k]; [reflexivity|]); destruct k as [|k]; [discriminate|reflexivity]). rewrite <- K. exact C.
Qed.

Lemma separators : forall s between, MacroSpec.separates s between -> exists x s1 s2, fits table Plain s1 /\ fits table Inn s2 /\
  (forall c, c 10%nat = s1 -> c 18%nat = s2 -> flat c (s_in x) = s /\ flat c (s_out x) = between).
Proof.
  assert (N0 : fits table Plain [number 0]) by exact (dummy_fits 0). assert (N1 : fits table Inn []) by (split; [constructor|reflexivity]).
  intros s between [|s' H|p H].
  - exists SNone, [number 0], []. split; [exact N0|split; [exact N1|]]. intros; split; reflexivity.
  - exists SPlain, s', []. split; [apply plain_fits; exact H|split; [exact N1|]]. intros c E1 E2. cbn [s_in s_out flat flat_map flat1]. rewrite E1, app_nil_r. split; reflexivity.
  - exists SGroup, [number 0], p. split; [exact N0|split; [apply text_fits; exact H|]]. intros c E1 E2. cbn [s_in s_out flat flat_map flat1 app]. rewrite E2, app_nil_r. split; reflexivity.
Qed.
Lemma arguments : forall a, MacroSpec.argument a -> exists b a1, value a1 /\ (forall c, c 12%nat = a1 -> flat c (a_in b) = a).
Proof.
  intros a [-> | H].
  - exists false, [number 0]. split; [apply number_fits|]. reflexivity.
  - exists true, a. split; [apply value_fits; exact H|]. intros c E. cbn [a_in flat flat_map flat1]. rewrite E, app_nil_r. reflexivity.
Qed.
(** joined texts *)
Fixpoint later {A} (between : list tok) (f : nat -> A -> list tok) (i : nat) (vs : list A) : list tok :=
  match vs with [] => [] | v :: r => (if Nat.eqb i 0 then [] else between) ++ f i v ++ later between f (S i) r end.
Lemma later_joined : forall A between (f : nat -> A -> list tok) vs, later between f 0 vs = MacroSpec.joined between (map (fun iv => f (fst iv) (snd iv)) (MacroSpec.numbered vs)).
Proof.
  intros A between f vs. unfold MacroSpec.numbered. destruct vs as [|v r]; [reflexivity|]. cbn [later Nat.eqb app length seq combine map MacroSpec.joined fst snd]. f_equal.
  assert (G : forall r i, later between f (S i) r = flat_map (fun x => between ++ x) (map (fun iv => f (fst iv) (snd iv)) (combine (seq (S i) (length r)) r))); [|apply G].
  induction r0 as [|w l IH]; intro i; [reflexivity|]. cbn [later Nat.eqb length seq combine map flat_map fst snd]. rewrite IH, <- app_assoc. reflexivity.
Qed.
Definition shown (i : nat) : tok := idx i.
Lemma shown_small : forall i, (i <= 32)%nat -> shown i = MacroSpec.numeral i.
Proof. intros i L. unfold shown, idx. rewrite (proj2 (Nat.leb_le i 32) L). reflexivity. Qed.
Lemma shown_big : forall i, (32 < i)%nat -> exists n, shown i = TId n false.
Proof. intros i L. unfold shown, idx. destruct (Nat.leb_spec i 32) as [H|_]; [lia|]. eexists. reflexivity. Qed.
Definition callof (m a : list tok) (i : nat) (v : list tok) : list tok := MacroSpec.applied m [a; [shown i]; v].
Lemma flat_args : forall v s b r, flat v (s ++ R TComma :: O 11 :: R TComma :: a_in b ++ r) = flat v s ++ TComma :: v 11%nat ++ TComma :: flat v (a_in b) ++ flat v r.
Proof. intros v s b r. rewrite flat_app. f_equal. change (TComma :: v 11%nat ++ TComma :: flat v (a_in b ++ r) = TComma :: v 11%nat ++ TComma :: flat v (a_in b) ++ flat v r). rewrite flat_app. reflexivity. Qed.
Lemma commas_cons : forall v vs, vs <> [] -> commas (v :: vs) = v ++ TComma :: commas vs.
Proof. intros v [|w r] H; [contradiction|reflexivity]. Qed.
Lemma foreach_becomes : forall sep bet m a vs, MacroSpec.separates sep bet -> MacroSpec.plain m -> MacroSpec.argument a -> Forall MacroSpec.value vs -> (length vs <= 63)%nat ->
  MacroSpec.becomes (MacroSpec.macro_use (str "H2PP_FOREACH") (sep :: m :: a :: vs)) (later bet (callof m a) 0 vs) /\
  (vs = [] -> MacroSpec.becomes (MacroSpec.macro_use (str "H2PP_FOREACH") (sep :: m :: a :: [[]])) []).
Proof.
  intros sep bet m a vs Hs Hm Ha Hv L. apply values_fit in Hv. destruct (separators _ _ Hs) as (x & s1 & s2 & F1 & F2 & Es). destruct (arguments _ Ha) as (b & a1 & Fa & Ea).
  set (c := fun k => if Nat.eqb k 19 then [number 0] else cF s1 s2 m a1 [number 0] [number 0] k).
  assert (Hc : forall k, fits table (kindF k) (c k)) by (apply cF_ok; auto; [apply plain_fits; exact Hm|apply number_fits|apply number_fits]).
  assert (Hx : Closed base (called n_unparen (flat c (u_sep (useF x b)))) (flat c (u_between (useF x b)))) by (apply sep_closed; [exact F1|exact F2]).
  assert (Eo : forall ws i, outs (useF x b) c i ws = later bet (callof m a) i ws).
  { induction ws as [|w ws IH]; intro i; [reflexivity|]. cbn [outs later]. rewrite IH. unfold between. f_equal; [destruct (Nat.eqb i 0); [reflexivity|apply Es; reflexivity]|]. f_equal.
    assert (G : forall v s1' t', flat v (s1' ++ R t' :: []) = flat v s1' ++ [t']) by (intros; rewrite flat_app; reflexivity).
    unfold out1. change (flat (vF c i [w]) (u_out (useF x b))) with (m ++ TLp :: flat (vF c i [w]) (a_in b ++ [R TComma; O 13; R TComma; O 16; R TRp])). rewrite flat_app, (flat_outer c i [w]) by (destruct b; reflexivity). rewrite (Ea c eq_refl).
    unfold callof, MacroSpec.applied, MacroSpec.group. cbn [MacroSpec.listed]. norm. }
  set (V := put40 (vF c 0 vs) (outs (useF x b) c 0 vs)).
  assert (Vs : flat V (s_in x) = sep) by (unfold V; rewrite flat_put40 by (destruct x; reflexivity); rewrite flat_outer by (destruct x; reflexivity); apply (Es c eq_refl eq_refl)).
  assert (Va : flat V (a_in b) = a) by (unfold V; rewrite flat_put40 by (destruct b; reflexivity); rewrite flat_outer by (destruct b; reflexivity); apply (Ea c eq_refl)).
  assert (Vo : flat V [O 40] = later bet (callof m a) 0 vs) by (unfold V; rewrite flat_40; apply Eo).
  split.
  - apply (closed_becomes outF). rewrite use_called. rewrite <- Vo.
    assert (E0 : flat V (match vs with [] => callF0 x b | _ => callF x b true end) = called (str "H2PP_FOREACH") (commas (sep :: m :: a :: vs))).
    { destruct vs as [|w ws].
      - unfold callF0. rewrite flat_call. rewrite <- (app_nil_r (a_in b)), flat_args, Vs, Va. change (flat V []) with (@nil tok). rewrite app_nil_r. reflexivity.
      - unfold callF. rewrite flat_call, flat_args, Vs, Va. change (flat V (R TComma :: list15 true)) with (TComma :: flat V (list15 (someb (w :: ws)))). rewrite flat_list15 by reflexivity. reflexivity. }
    rewrite <- E0. apply (foreach_top (useF x b) c _ [O 40] vs (useF_ok x b) Hc Hx Hv L). destruct vs; [apply topF0_ok|apply topF_ok].
  - intros ->. apply (closed_becomes outF). rewrite use_called.
    assert (E0 : flat V (callF x b false) = called (str "H2PP_FOREACH") (commas [sep; m; a; []])).
    { unfold callF. rewrite flat_call, flat_args, Vs, Va. reflexivity. }
    rewrite <- E0. change (@nil tok) with (later bet (callof m a) 0 []). rewrite <- Vo. apply (foreach_top (useF x b) c _ [O 40] [] (useF_ok x b) Hc Hx Hv L). apply topF_ok.
Qed.

(** *** cases and calls for each value *)
Definition dots (i : nat) : list tok := [shown i; MacroSpec.punct 46].
Definition headC (t : bool) : bytes := if t then str "template <typename x> static void" else str "template <typename T> static void".
Definition paramC (t : bool) : bytes := if t then str "()" else str "(T x)".
Definition c2 (p q : list tok) (k : nat) : list tok := if Nat.eqb k 19 then [number 0] else cF [number 0] [] [number 0] [number 0] p q k.
Lemma c2_ok : forall p q, value p -> value q -> forall k, fits table (kindF k) (c2 p q k).
Proof. intros p q Hp Hq. apply cF_ok; auto; [exact (dummy_fits 0)|split; [constructor|reflexivity]|exact (dummy_fits 0)|apply number_fits]. Qed.
Lemma cases_become : forall t p q vs, MacroSpec.value p -> MacroSpec.value q -> Forall MacroSpec.value vs -> (length vs <= 63)%nat ->
  MacroSpec.becomes (MacroSpec.macro_use (n_cases t) [p; q; MacroSpec.group (MacroSpec.listed vs)])
    (MacroSpec.template (headC t) p (paramC t) ++ MacroSpec.punct 59 :: later [] (fun i v => MacroSpec.case_of p q (dots i) [v] t) 0 vs ++ MacroSpec.punct 59 :: MacroSpec.template (headC t) p (paramC t)).
Proof.
  intros t p q vs Hp Hq Hv L. apply values_fit in Hv. apply value_fits in Hp, Hq. set (c := c2 p q). pose proof (c2_ok p q Hp Hq : forall k, fits table (kindF k) (c k)) as Hc.
  assert (Eo : forall ws i, outs (useC t) c i ws = later [] (fun i v => MacroSpec.case_of p q (dots i) [v] t) i ws).
  { induction ws as [|w ws IH]; intro i; [reflexivity|]. cbn [outs later]. rewrite IH. unfold between. change (flat c (u_between (useC t))) with (@nil tok). f_equal. f_equal.
    unfold MacroSpec.case_of, MacroSpec.applied, MacroSpec.group, dots. cbn [MacroSpec.listed]. destruct t.
    - change (out1 (useC true) c i w) with (t_case :: TLp :: q ++ idx i :: t_dot :: w ++ TRp :: t_lb :: p ++ t_lt :: w ++ [t_gt; TLp; TRp; t_semi; t_rb]). norm.
    - change (out1 (useC false) c i w) with (t_case :: TLp :: q ++ idx i :: t_dot :: w ++ TRp :: t_lb :: p ++ TLp :: w ++ [TRp; t_semi; t_rb]). norm. }
  pose proof (foreach_top (useC t) c (call (O 30 :: R TComma :: O 31 :: R TComma :: tuple (list15 (someb vs))) (n_cases t)) (casesC t) vs (useC_ok t) Hc unparen_none Hv L (topC_ok t (someb vs))) as C.
  apply closed_becomes in C. rewrite Eo in C. rewrite flat_call in C. set (V := put40 (vF c 0 vs) (later [] (fun i v => MacroSpec.case_of p q (dots i) [v] t) 0 vs)) in *.
  assert (E1 : flat V (O 30 :: R TComma :: O 31 :: R TComma :: tuple (list15 (someb vs))) = commas [p; q; MacroSpec.group (MacroSpec.listed vs)]).
  { change (flat V (O 30 :: R TComma :: O 31 :: R TComma :: tuple (list15 (someb vs)))) with (p ++ TComma :: q ++ TComma :: flat V (tuple (list15 (someb vs)))). rewrite flat_tuple, flat_list15 by reflexivity. rewrite (listed_commas vs). reflexivity. }
  rewrite E1 in C. rewrite use_called.
  assert (E2 : flat V (casesC t) = MacroSpec.template (headC t) p (paramC t) ++ MacroSpec.punct 59 :: later [] (fun i v => MacroSpec.case_of p q (dots i) [v] t) 0 vs ++ MacroSpec.punct 59 :: MacroSpec.template (headC t) p (paramC t)).
  { unfold casesC, MacroSpec.template. rewrite !flat_app.
    assert (D : flat V (fst (declC t)) = MacroSpec.words (headC t) /\ flat V (O 30 :: snd (declC t)) = p ++ MacroSpec.words (paramC t)) by (destruct t; split; vm_compute; reflexivity).
    destruct D as [D1 D2]. rewrite D1, D2.
    change (R t_semi :: O 40 :: R t_semi :: fst (declC t) ++ O 30 :: snd (declC t)) with ([R t_semi] ++ [O 40] ++ [R t_semi] ++ fst (declC t) ++ O 30 :: snd (declC t)). rewrite !flat_app, D1, D2. unfold V at 2. rewrite flat_40.
    change (flat V [R t_semi]) with [t_semi]. norm. }
  rewrite E2 in C. exact C.
Qed.
