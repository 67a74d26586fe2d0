(** Proofs about Member: the member itself, and the method called with arguments. *)
From Coq Require Import List NArith Bool Arith Lia DecimalString.
From Verif Require Import Base MacroModel MacroProofs MacroProofs2 MacroProofs3 MacroProofs4 MacroProofs5 MacroProofs6 MacroProofs7 MacroProofs8 MacroProofs9 MacroProofs10 MacroProofs11 MacroProofs12 MacroProofs13 MacroProofs17 MacroProofs19.
From Verif Require MacroSpec MacroSpec2 MacroSpec3.
Import ListNotations.
Local Open Scope N_scope.
Local Arguments lookup : simpl never.
Local Arguments bytes_eqb : simpl never.

Definition n_member : bytes := Eval vm_compute in str "H2Member".
Definition t_decay : tok := Eval vm_compute in TId (str "__H2MfpDecay") false.
Definition typeM : list stok := Eval vm_compute in raw (str "h2::mfp_decay<decltype") ++ R TLp :: O 16 :: R TRp :: raw (str ">::type").
Definition useM : use := mkuse [R TLp; R TComma; R TRp] [R TComma] [R t_decay] [] typeM.
Lemma useM_ok : checkF useM = true. Proof. vm_cast_no_check (eq_refl true). Qed.
Definition bigM : list bytes := Eval vm_compute in str "_H2PP_EQ__3__3" :: eval_names namesF.
Definition outsM : list bytes := Eval vm_compute in [str "H2PP_FOREACH"; str "H2PP_NCALL"; str "H2PP_CAT2"; str "H2PP_RESCAN"] ++ map (fun s => fst (define s)) member_text ++ bigM.
Definition namedM : list stok := Eval vm_compute in raw (str "h2::Member_member") ++ [R TLp; O 30; R TComma; O 31; R TRp].
Definition methodM (some : bool) : list stok :=
  raw (str "h2::Member_method") ++ R TLp :: O 30 :: R TComma :: raw (str "h2::mfp<") ++ O 40 :: raw (str ">::get") ++ R TLp :: O 31 :: R TRp :: R TComma ::
  raw (str "std::tuple<") ++ O 40 :: raw (str ">") ++ R TLp :: list15 some ++ [R TRp; R TRp].
Definition start (l : list stok) : list stok := O 30 :: R TComma :: O 31 :: R TComma :: l.
(** whether three are given in all *)
Definition askM (l : list stok) : list stok := R (number 3) :: R TComma :: call (start l) n_narg.
Definition runQ (n : nat) (l : list stok) : option (list stok) := sk find kindF (known base [(n_narg, start l, [R (number n)])]) bigM 60 true [] (map ST (call (askM l) n_eq)).
Definition countQ (n : nat) (l : list stok) : bool := gives (runQ n l) [R (one_if (Nat.eqb n 3))].
Lemma runQ_ok : forallb (fun n => countQ n [O 15]) (seq 3 61) && countQ 3 (tuple [O 15]) && countQ 3 (tuple []) = true.
Proof. vm_cast_no_check (eq_refl true). Qed.
(** one is given, or more *)
Definition eqsA (one : bool) : list eqn :=
  [(n_empty, [O 15], [R (number 0)]); (n_eq, askM [O 15], [R (one_if one)])] ++ (if one then [(n_ispar, [O 15], [R (number 0)])] else []).
(** they are given in parentheses *)
Definition eqsB (some : bool) : list eqn :=
  let t := tuple (list15 some) in [(n_empty, t, [R (number 0)]); (n_eq, askM t, [R (number 1)]); (n_ispar, t, [R (number 1)]); (n_unparen, t, list15 some)].
Definition pendM (some : bool) : eqn := (ev, pendF useM true (R (number 0)) (list15 some), [O 40]).
Definition runM (some : bool) (eqs : list eqn) (l : list stok) : option (list stok) := sk find (with40 kindF) (known bigM (pendM some :: eqs)) outsM 60 true [] (map ST (call (start l) n_member)).
Definition runN : option (list stok) := sk find kindF (known base [(n_empty, [], [R (number 1)])]) outsM 60 true [] (map ST (call [O 30; R TComma; O 31] n_member)).
Lemma runN_ok : gives runN namedM = true. Proof. vm_cast_no_check (eq_refl true). Qed.
Lemma runA_ok : forall one, gives (runM true (eqsA one) [O 15]) (methodM true) = true. Proof. intros [|]; vm_cast_no_check (eq_refl true). Qed.
Lemma runB_ok : forall some, gives (runM some (eqsB some) (tuple (list15 some))) (methodM some) = true. Proof. intros [|]; vm_cast_no_check (eq_refl true). Qed.
Local Opaque sk find.
Lemma base_big : forall n, In n base -> In n bigM.
Proof.
  intros n H. assert (A : forallb (fun x => has x bigM) base = true) by (vm_compute; reflexivity). rewrite forallb_forall in A. apply has_in. apply A. exact H.
Qed.
Lemma big_eval : forall n, In n (eval_names namesF) -> In n bigM.
Proof. intros n H. right. exact H. Qed.
Lemma hold_big : forall v e, holds base v e -> holds bigM v e.
Proof. intros v [[m b] r] H. unfold holds in *. eapply closed_sub; [exact base_big|exact H]. Qed.
Lemma big_outs : forallb (fun x => has x outsM) bigM = true. Proof. vm_compute. reflexivity. Qed.

Definition cM (e m : list tok) : nat -> list tok := c2 e m.
Lemma sepM : forall c, Closed base (called n_unparen (flat c (u_sep useM))) (flat c (u_between useM)).
Proof. intro c. apply (unparen_group [TComma]). split; [repeat constructor|reflexivity]. Qed.
Lemma top_closed : forall c eqs l vs, (forall k, fits table (kindF k) (c k)) -> Forall value vs -> (length vs <= 63)%nat ->
  Forall (holds bigM (vF c 0 vs)) eqs -> forallb (fun e => forallb no40 (snd (fst e) ++ snd e)) eqs = true -> gives (runM (someb vs) eqs l) (methodM (someb vs)) = true ->
  Closed outsM (flat (put40 (vF c 0 vs) (outs useM c 0 vs)) (call (start l) n_member)) (flat (put40 (vF c 0 vs) (outs useM c 0 vs)) (methodM (someb vs))).
Proof.
  intros c eqs l vs Hc Hv L He Hn G. pose proof (foreach_done useM c useM_ok Hc (sepM c) vs Hv L) as D. unfold textF in D.
  apply (run_known (with40 kindF) bigM (pendM (someb vs) :: eqs) outsM (put40 (vF c 0 vs) (outs useM c 0 vs)) 60 _ _).
  - apply fits_put40; [apply vF_ok; assumption|apply outs_fits; [exact useM_ok|exact Hc|exact Hv]].
  - exact big_outs.
  - constructor.
    + unfold holds, pendM. rewrite flat_40, flat_put40 by (destruct vs; reflexivity). rewrite (flat_pend useM c useM_ok) in D |- * by (intros; apply flat_outer; assumption).
      eapply closed_sub; [exact big_eval|]. destruct vs; exact D.
    + apply Forall_forall. intros [[m b] r] I. rewrite Forall_forall in He. specialize (He _ I). rewrite forallb_forall in Hn. specialize (Hn _ I). cbn in Hn. rewrite forallb_app in Hn.
      apply andb_prop in Hn. destruct Hn as [N1 N2]. unfold holds in *. rewrite !flat_put40 by assumption. exact He.
  - exact G.
Qed.

Lemma type_flat : forall w, flat (fun _ => w) typeM = MacroSpec3.type_of w.
Proof.
  intro w. change (flat (fun _ => w) typeM) with (MacroSpec.words (str "h2::mfp_decay<decltype") ++ TLp :: w ++ TRp :: MacroSpec.words (str ">::type")).
  unfold MacroSpec3.type_of, MacroSpec.group. generalize (MacroSpec.words (str "h2::mfp_decay<decltype")), (MacroSpec.words (str ">::type")). intros a b. cbn [app]. norm.
Qed.
Local Opaque MacroSpec3.type_of MacroSpec.words lex.
Lemma flat_raw : forall v s, flat v (raw s) = MacroSpec.words s.
Proof. intros v s. unfold raw. change (MacroSpec.words s) with (lex [] s). generalize (lex [] s). induction l as [|t l IH]; [reflexivity|]. cbn [map]. change (t :: flat v (map R l) = t :: l). rewrite IH. reflexivity. Qed.
Lemma flat_R : forall v t l, flat v (R t :: l) = t :: flat v l. Proof. reflexivity. Qed.
Lemma flat_O : forall v k l, flat v (O k :: l) = v k ++ flat v l. Proof. reflexivity. Qed.
Section Member.
Variables (e m : list tok) (vs : list (list tok)).
Hypothesis He : value e.
Hypothesis Hm : value m.
Hypothesis Hv : Forall value vs.
Let c := cM e m.
Let Hc : forall k, fits table (kindF k) (c k) := c2_ok e m He Hm.
Let V := put40 (vF c 0 vs) (outs useM c 0 vs).
Lemma outs_types : forall ws i, outs useM c i ws = flat_map (fun t => (if Nat.eqb i 0 then [] else [TComma]) ++ MacroSpec3.type_of t) (firstn 1 ws) ++ flat_map (fun t => TComma :: MacroSpec3.type_of t) (skipn 1 ws).
Proof.
  assert (G : forall ws i, (i <> 0)%nat -> outs useM c i ws = flat_map (fun t => TComma :: MacroSpec3.type_of t) ws).
  { induction ws as [|w ws IH]; intros i N; [reflexivity|]. cbn [outs flat_map]. rewrite IH by discriminate. unfold between. apply Nat.eqb_neq in N. rewrite N.
    change (out1 useM c i w) with (flat (fun _ => w) typeM). change (flat c (u_between useM)) with [TComma]. rewrite type_flat. cbn [app]. reflexivity. }
  intros [|w ws] i; [reflexivity|]. cbn [outs firstn skipn flat_map]. rewrite G by discriminate. unfold between. change (flat c (u_between useM)) with [TComma].
  change (out1 useM c i w) with (flat (fun _ => w) typeM). rewrite app_nil_r, type_flat, app_assoc. reflexivity.
Qed.
Lemma outs_all : outs useM c 0 vs = MacroSpec3.types_of vs.
Proof.
  rewrite outs_types. unfold MacroSpec3.types_of. rewrite listed_commas. destruct vs as [|w ws]; [reflexivity|]. cbn [firstn skipn map]. rewrite MacroProofs3.commas_cons. cbn [flat_map Nat.eqb app]. rewrite app_nil_r. f_equal.
  clear. induction ws as [|x ws IH]; [reflexivity|]. cbn [flat_map map]. rewrite IH. reflexivity.
Qed.
Lemma V_40 : V 40%nat = MacroSpec3.types_of vs.
Proof. exact outs_all. Qed.
Lemma V_method : flat V (methodM (someb vs)) = MacroSpec3.method_of e m vs.
Proof.
  assert (E : flat V (list15 (someb vs)) = commas vs) by (apply flat_list15; reflexivity).
  assert (E30 : V 30%nat = e) by reflexivity. assert (E31 : V 31%nat = m) by reflexivity. unfold methodM, MacroSpec3.method_of, MacroSpec.group. cbn [MacroSpec.listed]. rewrite listed_commas.
  repeat (rewrite ?flat_app, ?flat_raw, ?flat_R, ?flat_O). rewrite E30, E31, E, V_40. change (flat V []) with (@nil tok).
  generalize (MacroSpec.words (str "h2::Member_method")), (MacroSpec.words (str "h2::mfp<")), (MacroSpec.words (str ">::get")), (MacroSpec.words (str "std::tuple<")), (MacroSpec.words (str ">")), (MacroSpec3.types_of vs). intros.
  cbn [app]. norm.
Qed.
Lemma V_start : forall l, flat V (call (start l) n_member) = called n_member (e ++ TComma :: m ++ TComma :: flat V l).
Proof. intro l. rewrite flat_call. reflexivity. Qed.
End Member.

Lemma asked : forall c vs l n, (forall k, fits table (kindF k) (c k)) -> Forall value vs -> holds base (vF c 0 vs) (n_narg, start l, [R (number n)]) -> countQ n l = true ->
  holds bigM (vF c 0 vs) (n_eq, askM l, [R (one_if (Nat.eqb n 3))]).
Proof.
  intros c vs l n Hc Hv H Q. unfold holds. rewrite <- flat_call. apply (run_known kindF base [(n_narg, start l, [R (number n)])] bigM (vF c 0 vs) 60 _ _).
  - apply vF_ok; assumption.
  - vm_compute. reflexivity.
  - constructor; [exact H|constructor].
  - exact Q.
Qed.
Lemma given_closed : forall e m vs, value e -> value m -> Forall value vs -> vs <> [] -> (length vs <= 61)%nat -> (length vs = 1%nat -> told vs false) ->
  Closed outsM (called n_member (e ++ TComma :: m ++ TComma :: commas vs)) (MacroSpec3.method_of e m vs).
Proof.
  intros e m vs He Hm Hv N L T. pose proof (c2_ok e m He Hm : forall k, fits table (kindF k) (cM e m k)) as Hc.
  assert (F : few vs) by (split; [exact Hv|lia]).
  assert (S : someb vs = true) by (destruct vs; [contradiction|reflexivity]).
  pose proof (top_closed (cM e m) (eqsA (Nat.eqb (length vs) 1)) [O 15] vs Hc Hv ltac:(lia)) as C. rewrite S in C.
  assert (E15 : forall v : nat -> list tok, v 15%nat = commas vs -> flat v [O 15] = commas vs) by (intros v Hv15; cbn [flat flat_map flat1]; rewrite app_nil_r; exact Hv15).
  rewrite <- (V_method e m vs). rewrite S. rewrite <- (E15 (put40 (vF (cM e m) 0 vs) (outs useM (cM e m) 0 vs)) eq_refl). rewrite <- (V_start e m vs). apply C.
  - unfold eqsA. apply Forall_app. split.
    + constructor; [|constructor; [|constructor]].
      * apply hold_big. unfold holds. rewrite E15 by reflexivity. destruct vs as [|w ws]; [contradiction|]. exact (empty_list w ws F).
      * pose proof runQ_ok as Q. apply andb_prop in Q. destruct Q as [Q _]. apply andb_prop in Q. destruct Q as [Q _]. rewrite forallb_forall in Q.
        replace (Nat.eqb (length vs) 1) with (Nat.eqb (2 + length vs) 3) by (cbn; destruct (length vs) as [|[|?]]; reflexivity).
        apply (asked (cM e m) vs [O 15] (2 + length vs) Hc Hv); [|apply Q; apply in_seq; destruct vs; [contradiction|cbn in *; lia]].
        unfold holds. change (flat (vF (cM e m) 0 vs) (start [O 15])) with (e ++ TComma :: m ++ TComma :: flat (vF (cM e m) 0 vs) [O 15]). rewrite E15 by reflexivity.
        replace (e ++ TComma :: m ++ TComma :: commas vs) with (commas (e :: m :: vs)) by (destruct vs; [contradiction|reflexivity]). apply (narg_list e (m :: vs)). split; [constructor; [exact He|constructor; [exact Hm|exact Hv]]|cbn [length]; lia].
    + destruct (Nat.eqb_spec (length vs) 1) as [E|E]; [|constructor]. constructor; [|constructor]. apply hold_big. unfold holds. rewrite E15 by reflexivity.
      specialize (T E). destruct vs as [|w [|? ?]]; [discriminate|exact T|discriminate].
  - destruct (Nat.eqb (length vs) 1); reflexivity.
  - apply runA_ok.
  - exact Hv.
Qed.
Lemma braced_closed : forall e m vs, value e -> value m -> Forall value vs -> (length vs <= 63)%nat -> value (TLp :: commas vs ++ [TRp]) ->
  Closed outsM (called n_member (e ++ TComma :: m ++ TComma :: TLp :: commas vs ++ [TRp])) (MacroSpec3.method_of e m vs).
Proof.
  intros e m vs He Hm Hv L G. pose proof (c2_ok e m He Hm : forall k, fits table (kindF k) (cM e m k)) as Hc.
  assert (E15 : forall v : nat -> list tok, v 15%nat = commas vs -> flat v (tuple (list15 (someb vs))) = TLp :: commas vs ++ [TRp]) by (intros v Hv15; rewrite flat_tuple, flat_list15 by exact Hv15; reflexivity).
  pose proof (commas_inn vs Hv) as Fi.
  rewrite <- (V_method e m vs). rewrite <- (E15 (put40 (vF (cM e m) 0 vs) (outs useM (cM e m) 0 vs)) eq_refl). rewrite <- (V_start e m vs).
  apply (top_closed (cM e m) (eqsB (someb vs)) (tuple (list15 (someb vs))) vs Hc Hv L).
  - unfold eqsB. cbv zeta. constructor; [|constructor; [|constructor; [|constructor; [|constructor]]]].
    + apply hold_big. unfold holds. rewrite E15 by reflexivity. exact (empty_list (TLp :: commas vs ++ [TRp]) [] (conj (Forall_cons _ G (Forall_nil _)) (le_n_S _ _ (Nat.le_0_l 62)))).
    + pose proof runQ_ok as Q. apply andb_prop in Q. destruct Q as [Q Q0]. apply andb_prop in Q. destruct Q as [_ Q1].
      apply (asked (cM e m) vs _ 3%nat Hc Hv); [|destruct vs; assumption].
      unfold holds. change (flat (vF (cM e m) 0 vs) (start (tuple (list15 (someb vs))))) with (e ++ TComma :: m ++ TComma :: flat (vF (cM e m) 0 vs) (tuple (list15 (someb vs)))). rewrite E15 by reflexivity.
      apply (narg_list e [m; TLp :: commas vs ++ [TRp]]). split; [constructor; [exact He|constructor; [exact Hm|constructor; [exact G|constructor]]]|cbn [length]; lia].
    + apply hold_big. unfold holds. rewrite E15 by reflexivity. apply ispar_group. exact Fi.
    + apply hold_big. unfold holds. rewrite E15 by reflexivity. rewrite flat_list15 by reflexivity. apply unparen_group. exact Fi.
  - destruct vs; reflexivity.
  - apply runB_ok.
  - exact Hv.
Qed.

(** *** the statements *)
Lemma named_becomes : forall e m, MacroSpec.value e -> MacroSpec.value m -> MacroSpec.becomes (MacroSpec.macro_use (str "H2Member") [e; m]) (MacroSpec3.member_of e m).
Proof.
  intros e m He Hm. apply value_fits in He, Hm. rewrite use_called. apply (closed_becomes outsM).
  pose proof (run_known kindF base [(n_empty, [], [R (number 1)])] outsM (c2 e m) 60 (call [O 30; R TComma; O 31] n_member) namedM (c2_ok e m He Hm) ltac:(vm_compute; reflexivity) ltac:(constructor; [exact empty_nil|constructor]) runN_ok) as C.
  assert (E : flat (c2 e m) namedM = MacroSpec3.member_of e m).
  { change namedM with (raw (str "h2::Member_member") ++ [R TLp; O 30; R TComma; O 31; R TRp]). rewrite flat_app, flat_raw. unfold MacroSpec3.member_of, MacroSpec.group. cbn [MacroSpec.listed].
    change (flat (c2 e m) [R TLp; O 30; R TComma; O 31; R TRp]) with (TLp :: e ++ TComma :: m ++ [TRp]). generalize (MacroSpec.words (str "h2::Member_member")). intros. norm. }
  rewrite E, flat_call in C. change (flat (c2 e m) [O 30; R TComma; O 31]) with (e ++ TComma :: m ++ []) in C. rewrite app_nil_r in C. exact C.
Qed.
Lemma method_becomes : forall e m vs, MacroSpec.value e -> MacroSpec.value m -> Forall MacroSpec.value vs -> (1 <= length vs <= 61)%nat -> (forall v, vs = [v] -> MacroSpec2.unwrapped v) ->
  MacroSpec.becomes (MacroSpec.macro_use (str "H2Member") (e :: m :: vs)) (MacroSpec3.method_of e m vs).
Proof.
  intros e m vs He Hm Hv [L1 L2] U. apply value_fits in He, Hm. rewrite use_called. apply (closed_becomes outsM).
  replace (commas (e :: m :: vs)) with (e ++ TComma :: m ++ TComma :: commas vs) by (destruct vs; [cbn in L1; lia|reflexivity]).
  apply given_closed; try assumption; [apply values_fit; exact Hv|destruct vs; [cbn in L1; lia|discriminate]|].
  intro L. apply told_parameters. destruct vs as [|v [|? ?]]; try discriminate. split; [exact Hv|right]. exact (U v eq_refl).
Qed.
Lemma piece_text : forall a, MacroSpec.piece a -> MacroSpec.text a.
Proof. induction 1; [constructor|apply MacroSpec.text_word; assumption|apply MacroSpec.text_group; assumption]. Qed.
Lemma text_join : forall a b, MacroSpec.text a -> MacroSpec.text b -> MacroSpec.text (a ++ b).
Proof.
  intros a b H Hb. induction H as [|t r W _ IH|r _ IH|x r Hx _ _ IH]; [exact Hb|apply MacroSpec.text_word; assumption|apply MacroSpec.text_comma; exact IH|].
  replace ((TLp :: x ++ TRp :: r) ++ b) with (TLp :: x ++ TRp :: (r ++ b)) by (cbn [app]; rewrite <- app_assoc; reflexivity). apply MacroSpec.text_group; assumption.
Qed.
Lemma braced_becomes : forall e m vs, MacroSpec.value e -> MacroSpec.value m -> Forall MacroSpec.value vs -> (length vs <= 63)%nat ->
  MacroSpec.becomes (MacroSpec.macro_use (str "H2Member") [e; m; MacroSpec.group (MacroSpec.listed vs)]) (MacroSpec3.method_of e m vs).
Proof.
  intros e m vs He Hm Hv L. rewrite use_called. apply (closed_becomes outsM).
  assert (G : MacroSpec.value (MacroSpec.group (MacroSpec.listed vs))).
  { apply group_value. clear L. induction vs as [|v [|w r] IH]; [constructor| |].
    - inversion Hv; subst. apply piece_text. exact (proj1 H1).
    - inversion Hv as [|? ? V1 V2]; subst. cbn [MacroSpec.listed]. apply text_join; [apply piece_text; exact (proj1 V1)|]. apply MacroSpec.text_comma. exact (IH V2). }
  apply value_fits in G. rewrite (listed_commas vs) in G.
  rewrite (listed_commas vs). apply (braced_closed e m vs); [apply value_fits; exact He|apply value_fits; exact Hm|apply values_fit; exact Hv|exact L|exact G].
Qed.
