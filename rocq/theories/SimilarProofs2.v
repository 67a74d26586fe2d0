(** Proofs about the rows of the JSON diff. *)
From Coq Require Import List NArith ZArith QArith Bool Arith Lia Permutation Lqa.
From Verif Require Import Base FilterModel StrModel DiffModel DiffSpec JsonModel JsonSpec PrintModel PrintSpec DualProofs SimilarModel SimilarSpec SimilarProofs.
Import ListNotations.
Local Open Scope nat_scope.

Section Rows.
Context {num : Type}.
Notation node := (nat * (bytes * value num))%type.
Notation nkey cl x := (fold_str cl (fst (snd x))).
Lemma matched_map {X Y} (f : X -> Y) (lk : Y -> Y -> Q) es al ps es' al' : matched (fun x y => lk (f x) (f y)) es al ps es' al' ->
  matched lk (map f es) (map f al) (map (fun p => (f (fst p), f (snd p))) ps) (map f es') (map f al').
Proof.
  induction 1 as [al|e es pre a post ps es' al' F M IH|e es al ps es' al' F M IH]; cbn [map].
  - constructor.
  - rewrite map_app in *. cbn [map fst snd]. constructor; [|exact IH]. destruct F as (L & F1 & F2). split; [exact L|]. split; apply Forall_map; assumption.
  - constructor; [apply Forall_map; exact F|exact IH].
Qed.
Lemma pass_search cl es : forall al ps es' al', pass num (by_search num Q beats (1 # 5) node_similarity cl) es al = (ps, es', al') -> matched (node_similarity cl) es al ps es' al'.
Proof.
  induction es as [|e es IH]; intros al ps es' al' E; cbn [pass] in E; [injection E as <- <- <-; constructor|].
  change (by_search num Q beats (1 # 5) node_similarity cl e al) with (search cl e al) in E.
  destruct (search_cases cl e al) as [[S F]|(pre & a & post & -> & S & F)]; rewrite S in E.
  - destruct (pass num _ es al) as [[ps1 es1] al1] eqn:P. injection E as <- <- <-. constructor; [exact F|apply IH; exact P].
  - destruct (pass num _ es (pre ++ post)) as [[ps1 es1] al1] eqn:P. injection E as <- <- <-. constructor; [exact F|apply IH; exact P].
Qed.
(** ** what the keys leave *)
Lemma take_split f (al : list node) a al' : take num f al = Some (a, al') -> exists pre post, al = pre ++ a :: post /\ al' = pre ++ post /\ f a = true.
Proof.
  revert al'. induction al as [|x al IH]; intros al' E; [discriminate|]. cbn [take] in E. destruct (f x) eqn:Fx.
  - injection E as -> ->. exists [], al'. auto.
  - destruct (take num f al) as [(y, r)|]; [|discriminate]. injection E as -> <-. destruct (IH r eq_refl) as (pre & post & -> & -> & Fa). exists (x :: pre), post. auto.
Qed.
Lemma by_key_split cl (e : node) al a al' : by_key num cl e al = Some (a, al') -> exists pre post, al = pre ++ a :: post /\ al' = pre ++ post /\ nkey cl a = nkey cl e.
Proof.
  unfold by_key. destruct (take num (fun a0 : node => str_equals false (fst (snd a0)) (fst (snd e))) al) as [(b, r)|] eqn:T.
  - intro E. injection E as <- <-. destruct (take_split _ _ _ _ T) as (pre & post & -> & -> & Fa). exists pre, post. split; [reflexivity|]. split; [reflexivity|].
    apply str_equals_fold in Fa. rewrite !fold_false in Fa. rewrite Fa. reflexivity.
  - destruct cl; [|discriminate]. intro E. destruct (take_split _ _ _ _ E) as (pre & post & -> & -> & Fa). exists pre, post. split; [reflexivity|]. split; [reflexivity|]. apply str_equals_fold. exact Fa.
Qed.
Lemma by_key_none cl (e : node) al : by_key num cl e al = None -> ~ In (nkey cl e) (map (fun x => nkey cl x) al).
Proof.
  unfold by_key. intros E I. apply in_map_iff in I. destruct I as (b & K & I). apply str_equals_fold in K.
  destruct (take num (fun a0 : node => str_equals false (fst (snd a0)) (fst (snd e))) al) eqn:T; [discriminate|]. destruct cl.
  - apply (take_none num _ _ E) in I. congruence.
  - apply (take_none num _ _ T) in I. congruence.
Qed.
Lemma kept_app {X} (P : X -> Prop) l l' r r' : kept P l r -> kept P l' r' -> kept P (l ++ l') (r ++ r').
Proof. intros H H'. induction H; cbn; [exact H'| |]; constructor; assumption. Qed.
Lemma kept_split {X} (P : X -> Prop) l l' r : kept P (l ++ l') r -> exists r1 r2, r = r1 ++ r2 /\ kept P l r1 /\ kept P l' r2.
Proof.
  revert r. induction l as [|x l IH]; intros r K; [exists [], r; repeat split; [constructor|exact K]|]. cbn [app] in K. inversion K as [|? ? r' Px K'|? ? ? Px K']; subst.
  - destruct (IH _ K') as (r1 & r2 & -> & A & B). exists (x :: r1), r2. repeat split; [constructor; assumption|exact B].
  - destruct (IH _ K') as (r1 & r2 & -> & A & B). exists r1, r2. repeat split; [constructor; assumption|exact B].
Qed.
Lemma kept_ext {X} (P P' : X -> Prop) l r : (forall x, In x l -> (P x <-> P' x)) -> kept P l r -> kept P' l r.
Proof. intros H K. induction K; [constructor| |]; constructor; try (apply IHK; intros; apply H; right; assumption); [apply (H x)|rewrite <- (H x)]; (assumption || (left; reflexivity)). Qed.
Definition nlonely cl (m : list node) (x : node) : Prop := ~ In (nkey cl x) (map (fun y => nkey cl y) m).
Lemma key_dec (a b : bytes) : {a = b} + {a <> b}.
Proof. apply list_eq_dec. apply N.eq_dec. Qed.
Lemma nlonely_dec cl m x : {nlonely cl m x} + {~ nlonely cl m x}.
Proof. unfold nlonely. destruct (in_dec key_dec (nkey cl x) (map (fun y => nkey cl y) m)); [right; tauto|left; assumption]. Qed.
Lemma pass_left cl es : forall al ps es' al', NoDup (map (fun x : node => nkey cl x) es) -> NoDup (map (fun x : node => nkey cl x) al) ->
  pass num (by_key num cl) es al = (ps, es', al') -> kept (nlonely cl al) es es' /\ kept (nlonely cl es) al al'.
Proof.
  induction es as [|e es IH]; intros al ps es' al' NE NA E; cbn [pass] in E.
  - injection E as <- <- <-. split; [constructor|]. clear NE NA. induction al as [|a al IH]; constructor; [intros []|exact IH].
  - cbn [map] in NE. inversion NE as [|? ? NI NE']. subst. destruct (by_key num cl e al) as [(a, al1)|] eqn:B.
    + destruct (by_key_split cl e al a al1 B) as (pre & post & -> & -> & K).
      destruct (pass num (by_key num cl) es (pre ++ post)) as [[ps1 es1] al2] eqn:P. injection E as <- <- <-.
      rewrite map_app in NA. cbn [map] in NA. pose proof (NoDup_remove_1 _ _ _ NA) as NA1. pose proof (NoDup_remove_2 _ _ _ NA) as NA2. rewrite <- map_app in NA1, NA2.
      destruct (IH _ _ _ _ NE' NA1 P) as [K1 K2]. split.
      * apply K_drop.
        { unfold nlonely. intro H. apply H. rewrite <- K. apply (in_map (fun y : node => nkey cl y)). apply in_or_app. right. left. reflexivity. }
        eapply kept_ext; [|exact K1]. intros x I. unfold nlonely. rewrite !map_app, !in_app_iff. cbn [map In].
        assert (D : nkey cl a <> nkey cl x). { rewrite K. intro D. apply NI. rewrite D. apply (in_map (fun y : node => nkey cl y)). exact I. }
        tauto.
      * destruct (kept_split _ _ _ _ K2) as (r1 & r2 & -> & A1 & A2). apply kept_app.
        { eapply kept_ext; [|exact A1]. intros x I. unfold nlonely. cbn [map In]. assert (D : nkey cl e <> nkey cl x); [|tauto]. rewrite <- K. intro D. apply NA2. rewrite D. apply (in_map (fun y : node => nkey cl y)). apply in_or_app. left. exact I. }
        apply K_drop; [unfold nlonely; cbn [map In]; rewrite K; tauto|].
        eapply kept_ext; [|exact A2]. intros x I. unfold nlonely. cbn [map In]. assert (D : nkey cl e <> nkey cl x); [|tauto]. rewrite <- K. intro D. apply NA2. rewrite D. apply (in_map (fun y : node => nkey cl y)). apply in_or_app. right. exact I.
    + apply by_key_none in B. destruct (pass num (by_key num cl) es al) as [[ps1 es1] al1] eqn:P. injection E as <- <- <-. destruct (IH _ _ _ _ NE' NA P) as [K1 K2]. split; [apply K_keep; assumption|].
      eapply kept_ext; [|exact K2]. intros x I. unfold nlonely. cbn [map In]. assert (D : nkey cl e <> nkey cl x); [|tauto]. intro D. apply B. rewrite D. apply (in_map (fun y : node => nkey cl y)). exact I.
Qed.
Lemma kept_map {X Y} (f : X -> Y) (P : Y -> Prop) l r : kept (fun x => P (f x)) l r -> kept P (map f l) (map f r).
Proof. induction 1; cbn [map]; constructor; assumption. Qed.
Lemma lonely_nodes cl (v : value num) (x : node) : nlonely cl (nodes v) x <-> lonely cl (children v) (snd x).
Proof. unfold nlonely, lonely. rewrite <- (nodes_children num v), map_map. reflexivity. Qed.
Lemma zip_nth (es : list node) : forall al i x y, nth_error es i = Some x -> nth_error al i = Some y -> In (Some x, Some y) (zip num es al).
Proof.
  induction es as [|e es IH]; intros al i x y E F; [destruct i; discriminate|]. destruct al as [|a al]; [destruct i; discriminate|]. cbn [zip]. destruct i as [|i]; cbn in E, F.
  - injection E as ->. injection F as ->. left. reflexivity.
  - right. apply (IH al i); assumption.
Qed.
(** ** the rows *)
Variable show : num -> bytes.
Variable near : num -> num -> bool.
Variable pat : bool -> bytes -> bytes -> bool.
Lemma plan_row f cl depth rel i ke le j ka la h ch : fits num (S f) (Some (i, (ke, Obj le))) -> fits num (S f) (Some (j, (ka, Obj la))) ->
  dual_of show near pat (S f) cl depth rel (Some (i, (ke, Obj le))) (Some (j, (ka, Obj la))) = Dual h ch ->
  forall ne na r, In ne (nodes (Obj le)) -> In na (nodes (Obj la)) ->
  In (Some ne, Some na, r) (object_plan num Q beats (1 # 5) node_similarity cl true (nodes (Obj le)) (nodes (Obj la))) -> shares_row show ch (snd ne) (snd na) r.
Proof.
  intros Fe Fa ED ne na r Ine Ina IP.
  destruct (kids_plan num show near pat Q beats (1 # 5) node_similarity f cl depth _ _ Fe Fa) as (P & E1 & _ & _ & _ & _ & E6). specialize (E6 (or_introl eq_refl) _ IP).
  unfold dual_of in ED. cbn [mk_dual] in ED. cbn zeta in *. rewrite E1 in ED.
  set (ch0 := map (fun p => mk_dual num show near pat Q beats (1 # 5) node_similarity f cl (S depth) (snd p) (fst (fst p)) (snd (fst p))) P) in *.
  destruct (mark_last_spec ch0) as (r0 & es & az & EM & _ & _ & _ & _ & _ & F2). rewrite EM in ED. cbn [fst] in ED. injection ED as _ <-.
  assert (Ic : In (mk_dual num show near pat Q beats (1 # 5) node_similarity f cl (S depth) r (Some ne) (Some na)) ch0) by (unfold ch0; apply in_map_iff; exists (Some ne, Some na, r); auto).
  assert (F1 : fits num f (Some ne)) by (eapply onodes_fits; [exact Fe|exact Ine]). assert (F3 : fits num f (Some na)) by (eapply onodes_fits; [exact Fa|exact Ina]).
  assert (L : (0 < f)%nat) by (destruct F1 as [_ F1]; pose proof (height_pos num (snd (snd ne))); lia).
  destruct (mk_spec num show near pat Q beats (1 # 5) node_similarity f cl (S depth) r (Some ne) (Some na) F1 F3 L) as ((LO & _) & (RO & _) & _).
  destruct f as [|f]; [lia|].
  assert (G : exists c, In c r0 /\ exists b1 b2, c = mark b1 b2 (mk_dual num show near pat Q beats (1 # 5) node_similarity (S f) cl (S depth) r (Some ne) (Some na))).
  { clear - F2 Ic. induction F2 as [|d d' l l' (b1 & b2 & E) F2 IH]; [contradiction|]. destruct Ic as [<-|Ic]; [exists d'; split; [left; reflexivity|exists b1, b2; exact E]|]. destruct (IH Ic) as (c & I & H). exists c. split; [right; exact I|exact H]. }
  destruct G as (c & Ic' & b1 & b2 & ->).
  apply (left_mark num show b1 b2) in LO. apply (right_mark num show b1 b2) in RO.
  cbn [mk_dual] in *. cbn [mark] in *. eexists _, _. split; [exact Ic'|]. split; [reflexivity|]. split; assumption.
Qed.
Lemma rows n cl depth rel i ke le j ka la : whole (Obj le) -> whole (Obj la) -> height (@Obj num le) <= n -> height (@Obj num la) <= n ->
  NoDup (map (fun p => fold_str cl (fst p)) le) -> NoDup (map (fun p => fold_str cl (fst p)) la) ->
  exists h ch es al ps re ra, dual_of show near pat n cl depth rel (Some (i, (ke, Obj le))) (Some (j, (ka, Obj la))) = Dual h ch /\
    kept (lonely cl la) le es /\ kept (lonely cl le) la al /\ matched (likeness cl) es al ps re ra /\
    Forall (fun p => shares_row show ch (fst p) (snd p) false) ps /\
    forall x y m, nth_error re m = Some x -> nth_error ra m = Some y -> shares_row show ch x y true.
Proof.
  intros We Wa He Ha NE NA. destruct n as [|f]; [cbn in He; lia|].
  assert (Fe : fits num (S f) (Some (i, (ke, Obj le)))) by (split; assumption). assert (Fa : fits num (S f) (Some (j, (ka, Obj la)))) by (split; assumption).
  destruct (dual_of show near pat (S f) cl depth rel (Some (i, (ke, Obj le))) (Some (j, (ka, Obj la)))) as [|h ch] eqn:ED; [discriminate|].
  pose proof (plan_row f cl depth rel i ke le j ka la h ch Fe Fa ED) as ROW. unfold object_plan in ROW.
  assert (NE' : NoDup (map (fun x : node => nkey cl x) (nodes (Obj le)))) by (rewrite <- (map_map snd (fun p : bytes * value num => fold_str cl (fst p))), (nodes_children num (Obj le)); exact NE).
  assert (NA' : NoDup (map (fun x : node => nkey cl x) (nodes (Obj la)))) by (rewrite <- (map_map snd (fun p : bytes * value num => fold_str cl (fst p))), (nodes_children num (Obj la)); exact NA).
  destruct (pass num (by_key num cl) (nodes (Obj le)) (nodes (Obj la))) as [[p1 es1] al1] eqn:P1. destruct (pass_left cl _ _ _ _ _ NE' NA' P1) as [K1 K2].
  destruct (pass_perm num _ (by_key_takes num cl) _ _ _ _ _ P1) as [A1 B1].
  destruct (pass num (by_search num Q beats (1 # 5) node_similarity cl) es1 al1) as [[p2 es2] al2] eqn:P2. pose proof (pass_search cl _ _ _ _ _ P2) as M.
  destruct (pass_perm num _ (by_search_takes num _ _ _ _ cl) _ _ _ _ _ P2) as [A2 B2].
  exists h, ch, (map snd es1), (map snd al1), (map (fun p => (snd (fst p), snd (snd p))) p2), (map snd es2), (map snd al2). split; [reflexivity|].
  assert (IE : forall x, In x es1 -> In x (nodes (Obj le))) by (intros x I; eapply Permutation_in; [apply Permutation_sym; exact A1|apply in_or_app; right; exact I]).
  assert (IA : forall x, In x al1 -> In x (nodes (Obj la))) by (intros x I; eapply Permutation_in; [apply Permutation_sym; exact B1|apply in_or_app; right; exact I]).
  split; [|split; [|split; [|split]]].
  - change le with (children (Obj le)). rewrite <- (nodes_children num (Obj le)). apply kept_map. eapply kept_ext; [|exact K1]. intros x _. apply lonely_nodes.
  - change la with (children (Obj la)). rewrite <- (nodes_children num (Obj la)). apply kept_map. eapply kept_ext; [|exact K2]. intros x _. apply lonely_nodes.
  - apply (matched_map snd (likeness cl)). exact M.
  - apply Forall_map, Forall_forall. intros (x, y) I. cbn [fst snd]. destruct (matched_pairs _ _ _ _ _ _ M x y I) as (_ & Ix & Iy). apply ROW; [apply IE; exact Ix|apply IA; exact Iy|].
    apply in_or_app. left. apply in_map_iff. exists (x, y). split; [reflexivity|]. apply in_or_app. right. exact I.
  - intros x y m Ex Ey. rewrite nth_error_map in Ex, Ey. destruct (nth_error es2 m) as [nx|] eqn:E1; [|discriminate]. destruct (nth_error al2 m) as [ny|] eqn:E2; [|discriminate]. injection Ex as <-. injection Ey as <-.
    apply ROW.
    + apply IE. eapply Permutation_in; [apply Permutation_sym; exact A2|]. apply in_or_app. right. eapply nth_error_In; exact E1.
    + apply IA. eapply Permutation_in; [apply Permutation_sym; exact B2|]. apply in_or_app. right. eapply nth_error_In; exact E2.
    + apply in_or_app. right. apply in_map_iff. exists (Some nx, Some ny). split; [reflexivity|]. eapply zip_nth; eassumption.
Qed.
(** one member renamed *)
Lemma kept_one {X} (P : X -> Prop) x : forall l1 l2 r, kept P (l1 ++ x :: l2) r -> P x -> (forall y, In y (l1 ++ l2) -> ~ P y) -> r = [x].
Proof.
  assert (Z : forall l r, kept P l r -> (forall y, In y l -> ~ P y) -> r = []).
  { intros l r K. induction K as [|y l r Py K IH|y l r Py K IH]; intro N; [reflexivity|destruct (N y (or_introl eq_refl) Py)|apply IH; intros z I; apply N; right; exact I]. }
  intros l1 l2 r K Px N. destruct (kept_split _ _ _ _ K) as (r1 & r2 & -> & K1 & K2). rewrite (Z _ _ K1) by (intros y I; apply N, in_or_app; auto). cbn [app].
  inversion K2 as [|? ? r' Py K'|? ? ? Py K']; subst; [|contradiction]. rewrite (Z _ _ K') by (intros y I; apply N, in_or_app; auto). reflexivity.
Qed.
Lemma renamed n cl depth rel i ke l1 k v l2 j ka m1 k' w m2 : let le := l1 ++ (k, v) :: l2 in let la := m1 ++ (k', w) :: m2 in
  whole (Obj le) -> whole (Obj la) -> height (@Obj num le) <= n -> height (@Obj num la) <= n ->
  NoDup (map (fun p => fold_str cl (fst p)) le) -> NoDup (map (fun p => fold_str cl (fst p)) la) ->
  lonely cl la (k, v) -> lonely cl le (k', w) -> (forall p, In p (l1 ++ l2) -> ~ lonely cl la p) -> (forall p, In p (m1 ++ m2) -> ~ lonely cl le p) ->
  exists h ch, dual_of show near pat n cl depth rel (Some (i, (ke, Obj le))) (Some (j, (ka, Obj la))) = Dual h ch /\
    ((1 # 5 < similarity cl k v k' w)%Q -> shares_row show ch (k, v) (k', w) false) /\ ((similarity cl k v k' w <= 1 # 5)%Q -> shares_row show ch (k, v) (k', w) true).
Proof.
  intros le la We Wa He Ha NE NA L1 L2 O1 O2. destruct (rows n cl depth rel i ke le j ka la We Wa He Ha NE NA) as (h & ch & es & al & ps & re & ra & ED & K1 & K2 & M & R1 & R2).
  exists h, ch. split; [exact ED|]. pose proof (kept_one _ _ _ _ _ K1 L1 O1) as E1. pose proof (kept_one _ _ _ _ _ K2 L2 O2) as E2. subst es al. split; intro S.
  - assert (M' : matched (likeness cl) [(k, v)] [(k', w)] [((k, v), (k', w))] [] []).
    { apply (M_pair (likeness cl) (k, v) [] [] (k', w) [] [] [] []); [|constructor]. split; [exact S|]. split; constructor. }
    destruct (matched_unique _ _ _ _ _ _ M _ _ _ M') as (-> & -> & ->). inversion R1. subst. assumption.
  - assert (M' : matched (likeness cl) [(k, v)] [(k', w)] [] [(k, v)] [(k', w)]).
    { apply M_none; [|constructor]. constructor; [exact S|constructor]. }
    destruct (matched_unique _ _ _ _ _ _ M _ _ _ M') as (-> & -> & ->). apply (R2 _ _ 0%nat); reflexivity.
Qed.
End Rows.
