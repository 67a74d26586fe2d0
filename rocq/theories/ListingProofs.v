From Coq Require Import List NArith Bool Arith Lia.
From Verif Require Import Base JunitModel JunitSpec JunitProofs ListingModel ListingSpec.
Import ListNotations.
Local Open Scope N_scope.

Lemma bit_of : forall a n, negb (N.land a (2 ^ n) =? 0) = N.testbit a n.
Proof.
  intros a n. destruct (N.testbit a n) eqn:B.
  - destruct (N.eqb_spec (N.land a (2 ^ n)) 0) as [E|]; [|reflexivity].
    assert (X : N.testbit (N.land a (2 ^ n)) n = true) by (rewrite N.land_spec, B, N.pow2_bits_true; reflexivity).
    rewrite E in X. rewrite N.bits_0 in X. discriminate.
  - replace (N.land a (2 ^ n)) with 0; [reflexivity|]. apply N.bits_inj. intro k. rewrite N.bits_0, N.land_spec, N.pow2_bits_eqb.
    destruct (N.eqb_spec n k) as [<-|]; [rewrite B|rewrite andb_false_r]; reflexivity.
Qed.
Lemma bit_suite : forall l, list_suite l = N.testbit l 4. Proof. intro. apply (bit_of l 4). Qed.
Lemma bit_case : forall l, list_case l = N.testbit l 8. Proof. intro. apply (bit_of l 8). Qed.
Lemma bit_todo : forall l, list_todo l = N.testbit l 12. Proof. intro. apply (bit_of l 12). Qed.
Lemma bit_tags : forall l, list_tags l = N.testbit l 16. Proof. intro. apply (bit_of l 16). Qed.

Lemma basefile_ok : forall p best,
  (Forall (fun c => ~ separator c) p /\ basefile_from p best = best) \/
  (exists before c part, p = before ++ c :: part /\ separator c /\ Forall (fun c => ~ separator c) part /\ basefile_from p best = part).
Proof.
  induction p as [|x p IH]; intros best; cbn [basefile_from].
  - left. split; [constructor|reflexivity].
  - destruct ((x =? 47) || (x =? 92)) eqn:E.
    + assert (S1 : separator x) by (apply orb_true_iff in E as [E|E]; apply N.eqb_eq in E; [left|right]; exact E).
      right. destruct (IH p) as [[F Q]|(b & c & q & -> & S2 & F & Q)].
      * exists [], x, p. auto.
      * exists (x :: b), c, q. auto.
    + apply orb_false_iff in E as [E1 E2]. apply N.eqb_neq in E1, E2.
      destruct (IH best) as [[F Q]|(b & c & q & -> & S2 & F & Q)].
      * left. split; [constructor; [intros [->| ->]; congruence|exact F]|exact Q].
      * right. exists (x :: b), c, q. auto.
Qed.
Lemma basefile_part : forall p, last_part p (basefile p).
Proof.
  intro p. unfold basefile. destruct (basefile_ok p p) as [[F Q]|(b & c & q & E & S2 & F & Q)]; rewrite Q; split; auto.
  right. exists b, c. auto.
Qed.
Lemma format_tags_ok : forall l ts, format_tags l ts = if N.testbit l 16 then concat (map (cons 32) ts) else [].
Proof. intros. unfold format_tags. rewrite bit_tags. destruct (N.testbit l 16); [|reflexivity]. rewrite flat_map_concat_map. reflexivity. Qed.
Lemma described_ok : forall l n f ts, described l n f ts (n ++ str " " ++ basefile f ++ format_tags l ts).
Proof. intros. exists (basefile f). rewrite format_tags_ok. split; [apply basefile_part|reflexivity]. Qed.

Lemma count_app : forall A (p : A -> bool) a b, count p (a ++ b) = count p a + count p b.
Proof. intros. unfold count. rewrite filter_app, app_length. lia. Qed.
Lemma count_one : forall A (p : A -> bool) x, count p [x] = if p x then 1 else 0.
Proof. intros. unfold count. cbn. destruct (p x); reflexivity. Qed.

(** distinct *)
Lemma distinct_in : forall l x, In x (distinct l) <-> In x l.
Proof.
  induction l as [|y l IH]; intro x; [tauto|]. cbn. rewrite filter_In, IH.
  destruct (same_name y x); split; intros [H|H]; tauto.
Qed.
Lemma distinct_nodup : forall l, NoDup (distinct l).
Proof.
  induction l as [|y l IH]; cbn; constructor.
  - rewrite filter_In. destruct (same_name y y); [intros [_ H]; discriminate|congruence].
  - apply NoDup_filter, IH.
Qed.
Lemma filter_out : forall x l, ~ In x l -> filter (fun y => if same_name x y then false else true) l = l.
Proof.
  induction l as [|y l IH]; cbn; intro H; [reflexivity|]. destruct (same_name x y) as [->|]; [tauto|]. rewrite IH; tauto.
Qed.
Lemma distinct_snoc : forall l x, distinct (l ++ [x]) = if in_dec same_name x l then distinct l else distinct l ++ [x].
Proof.
  induction l as [|y l IH]; intro x.
  - reflexivity.
  - cbn [app distinct]. rewrite IH. destruct (in_dec same_name x l) as [I1|I1].
    + destruct (in_dec same_name x (y :: l)) as [|I2]; [reflexivity|cbn in I2; tauto].
    + rewrite filter_app. cbn [filter]. destruct (same_name y x) as [->|Q].
      * destruct (in_dec same_name x (x :: l)) as [|I2]; [rewrite app_nil_r; reflexivity|cbn in I2; tauto].
      * destruct (in_dec same_name x (y :: l)) as [I2|I2]; [destruct I2; [congruence|tauto]|reflexivity].
Qed.
Lemma distinct_incl : forall a b, incl a b -> (length (distinct a) <= length (distinct b))%nat.
Proof. intros a b H. apply NoDup_incl_length; [apply distinct_nodup|]. intros x X. apply (proj1 (distinct_in _ _)) in X. apply (proj2 (distinct_in _ _)). apply H, X. Qed.

(** tag tables *)
Definition row_of (m : list (bool * bytes)) (n : bytes) : tagrow :=
  mktag n (N.of_nat (count_occ same_mark m (true, n))) (N.of_nat (count_occ same_mark m (false, n))).
Definition table (m : list (bool * bytes)) : list tagrow := map (row_of m) (distinct (map snd m)).
Lemma row_other : forall m b n k, k <> n -> row_of (m ++ [(b, n)]) k = row_of m k.
Proof. intros. unfold row_of. rewrite !count_occ_app. cbn [count_occ]. destruct (same_mark (b, n) (true, k)) as [E|_]; [injection E; congruence|]. destruct (same_mark (b, n) (false, k)) as [E|_]; [injection E; congruence|]. rewrite !Nat.add_0_r. reflexivity. Qed.
Lemma row_same : forall m b n, row_of (m ++ [(b, n)]) n = if b then mktag n (t_suites (row_of m n) + 1) (t_cases (row_of m n)) else mktag n (t_suites (row_of m n)) (t_cases (row_of m n) + 1).
Proof.
  intros. unfold row_of. rewrite !count_occ_app. cbn [count_occ].
  destruct b; destruct (same_mark _ (true, n)) as [E|E]; try congruence; destruct (same_mark _ (false, n)) as [E2|E2]; try congruence; cbn [t_suites t_cases]; f_equal; lia.
Qed.
Lemma bump_in : forall m b n l, NoDup l -> In n l -> bump b n (map (row_of m) l) = Some (map (row_of (m ++ [(b, n)])) l).
Proof.
  induction l as [|k l IH]; intros D J; [destruct J|]. inversion D as [|? ? D1 D2]; subst. cbn [map bump].
  change (t_name (row_of m k)) with k. destruct (bytes_eqb n k) eqn:E.
  - apply bytes_eqb_eq in E. subst k. rewrite row_same. f_equal. f_equal. apply map_ext_in. intros x X. rewrite row_other; [reflexivity|]. intros ->. tauto.
  - destruct J as [->|J]; [assert (X : bytes_eqb n n = true) by (apply bytes_eqb_eq; reflexivity); congruence|].
    rewrite IH by assumption. cbn [option_map]. rewrite row_other; [reflexivity|]. intros ->. tauto.
Qed.
Lemma bump_out : forall m b n l, ~ In n l -> bump b n (map (row_of m) l) = None.
Proof.
  induction l as [|k l IH]; intro J; [reflexivity|]. cbn [map bump]. change (t_name (row_of m k)) with k.
  destruct (bytes_eqb n k) eqn:E; [apply bytes_eqb_eq in E; subst; cbn in J; tauto|]. rewrite IH; [reflexivity|]. cbn in J. tauto.
Qed.
Lemma add_tag_ok : forall m b n, N.of_nat (length (distinct (map snd (m ++ [(b, n)])))) <= 1024 -> add_tag b (table m) n = table (m ++ [(b, n)]).
Proof.
  intros m b n H. unfold add_tag, table in *. rewrite map_app in *. cbn [map snd] in *. rewrite distinct_snoc in *.
  destruct (in_dec same_name n (map snd m)) as [J|J].
  - rewrite bump_in; [reflexivity|apply distinct_nodup|apply distinct_in, J].
  - assert (J' : ~ In n (distinct (map snd m))) by (rewrite distinct_in; exact J).
    rewrite bump_out by exact J'. rewrite app_length in H. cbn in H. rewrite map_length.
    destruct (N.leb_spec 1024 (N.of_nat (length (distinct (map snd m))))); [lia|]. rewrite map_app. f_equal.
    + apply map_ext_in. intros x X. symmetry. apply row_other. intros ->. tauto.
    + cbn [map]. rewrite row_same. f_equal. unfold row_of. cbn [t_suites t_cases].
      assert (Z : forall c, count_occ same_mark m (c, n) = 0%nat).
      { intro c. apply count_occ_not_In. intro X. apply J. apply in_map with (f := snd) in X. exact X. }
      rewrite !Z. destruct b; reflexivity.
Qed.
Lemma add_tags_ok : forall ns m b, N.of_nat (length (distinct (map snd (m ++ map (pair b) ns)))) <= 1024 -> fold_left (add_tag b) ns (table m) = table (m ++ map (pair b) ns).
Proof.
  induction ns as [|n ns IH]; intros m b H; cbn [fold_left map] in *; [rewrite app_nil_r; reflexivity|].
  replace (m ++ (b, n) :: map (pair b) ns) with ((m ++ [(b, n)]) ++ map (pair b) ns) in * by (rewrite <- app_assoc; reflexivity).
  rewrite add_tag_ok; [apply IH, H|]. eapply N.le_trans; [|exact H].
  pose proof (distinct_incl (map snd (m ++ [(b, n)])) (map snd ((m ++ [(b, n)]) ++ map (pair b) ns))) as X.
  rewrite (map_app snd (m ++ [(b, n)])) in *. specialize (X (incl_appl _ (incl_refl _))). lia.
Qed.

(** marks *)
Definition upto (g : group) (es : list entry) : group := mkgroup (g_name g) (g_filine g) (g_tags g) (g_filtered g) (g_absent g) es.
Lemma marks_app : forall a x y, marks a (x ++ y) = marks a x ++ marks a y.
Proof. intros. apply flat_map_app. Qed.
Lemma marks_upto : forall a g es, marks a [upto g es] = marks_of_suite a g ++ flat_map (marks_of_entry a) es.
Proof. intros. unfold marks. cbn. rewrite app_nil_r. reflexivity. Qed.
Lemma marks_sub : forall gs, incl (marks false gs) (marks true gs).
Proof.
  intros gs x X. unfold marks in *. apply in_flat_map in X as (g & G & X). apply in_flat_map. exists g. split; [exact G|].
  apply in_app_or in X as [X|X]; apply in_or_app.
  - left. unfold marks_of_suite in *. destruct (g_absent g), (g_filtered g); cbn in *; tauto.
  - right. apply in_flat_map in X as (e & E & X). apply in_flat_map. exists e. split; [exact E|]. unfold marks_of_entry in *. destruct (e_filtered e); cbn in *; tauto.
Qed.
Lemma few_false : forall gs, few_tags gs -> N.of_nat (length (tag_names false gs)) <= 1024.
Proof.
  intros gs H. unfold few_tags, tag_names in *. eapply N.le_trans; [|exact H].
  pose proof (distinct_incl (map snd (marks false gs)) (map snd (marks true gs)) (incl_map snd (marks_sub gs))). lia.
Qed.
Lemma few_prefix : forall a b, few_tags (a ++ b) -> few_tags a.
Proof.
  intros a b H. unfold few_tags, tag_names in *. rewrite marks_app, map_app in H. eapply N.le_trans; [|exact H].
  pose proof (distinct_incl (map snd (marks true a)) (map snd (marks true a) ++ map snd (marks true b)) (incl_appl _ (incl_refl _))). lia.
Qed.
Lemma few_entries : forall pre g a b, few_tags (pre ++ [upto g (a ++ b)]) -> few_tags (pre ++ [upto g a]).
Proof.
  intros pre g a b H. unfold few_tags, tag_names in *. rewrite marks_app, marks_upto, flat_map_app in H.
  replace (marks true pre ++ marks_of_suite true g ++ flat_map (marks_of_entry true) a ++ flat_map (marks_of_entry true) b) with (marks true (pre ++ [upto g a]) ++ flat_map (marks_of_entry true) b) in H
    by (rewrite marks_app, marks_upto, !app_assoc; reflexivity).
  rewrite map_app in H. eapply N.le_trans; [|exact H].
  pose proof (distinct_incl (map snd (marks true (pre ++ [upto g a]))) (map snd (marks true (pre ++ [upto g a])) ++ map snd (flat_map (marks_of_entry true) b)) (incl_appl _ (incl_refl _))). lia.
Qed.

Section L.
Variable lists : N.
(** what the counters say after suites [gs], the last of which has its cases in [es] *)
Record inv (gs : list group) (es : list entry) (st : state) : Prop := mkinv {
  i_suites : suites st = count (fun g => negb (g_absent g)) gs;
  i_cases : cases st = count (fun e => negb (e_todo e)) (entries gs);
  i_todos : todos st = count e_todo (entries gs);
  i_us : u_suites st = count (suite_listed lists) gs;
  i_uc : u_cases st = count (case_listed lists) (entries gs);
  i_ut : u_todos st = count (todo_listed lists) (entries gs);
  i_sc : s_cases st = count (case_listed lists) es;
  i_st : s_todos st = count (todo_listed lists) es;
  i_tags : few_tags gs -> tags st = table (marks true gs) /\ u_tags st = table (marks false gs) }.

Lemma entries_app : forall a b, entries (a ++ b) = entries a ++ entries b.
Proof. intros. apply flat_map_app. Qed.
Lemma entries_upto : forall g es, entries [upto g es] = es.
Proof. intros. unfold entries. cbn. apply app_nil_r. Qed.
Lemma listed_split : forall es, count (entry_listed lists) es = count (case_listed lists) es + count (todo_listed lists) es.
Proof.
  induction es as [|e es IH]; [reflexivity|]. change (e :: es) with ([e] ++ es). rewrite !count_app, IH, !count_one.
  unfold entry_listed, case_listed, todo_listed. destruct (N.testbit lists 8), (N.testbit lists 12), (e_todo e), (e_filtered e); cbn [orb andb negb]; lia.
Qed.

Lemma suite_step : forall pre es st g, inv pre es st ->
  inv (pre ++ [upto g []]) [] (fst (on_suite_start lists st g)) /\
  (if suite_listed lists g then exists l, snd (on_suite_start lists st g) = [l] /\ suite_row lists pre g l else snd (on_suite_start lists st g) = []).
Proof.
  intros pre es st g [a b c d e f h i j]. assert (Z : suite_listed lists (upto g []) = N.testbit lists 4 && negb (g_absent g) && negb (g_filtered g)) by reflexivity.
  change (suite_listed lists g) with (N.testbit lists 4 && negb (g_absent g) && negb (g_filtered g)). unfold on_suite_start. rewrite bit_suite. cbn [u_suites tags u_tags suites s_cases s_todos cases todos u_cases u_todos].
  assert (T : few_tags (pre ++ [upto g []]) ->
    (if g_absent g then tags st else fold_left (add_tag true) (g_tags g) (tags st)) = table (marks true (pre ++ [upto g []])) /\
    (if g_absent g || g_filtered g then u_tags st else fold_left (add_tag true) (g_tags g) (u_tags st)) = table (marks false (pre ++ [upto g []]))).
  { intro F. destruct (j (few_prefix _ _ F)) as [X Y]. pose proof (few_false _ F) as F2. unfold few_tags, tag_names in F, F2. rewrite !marks_app, !marks_upto in *. cbn [flat_map] in *. rewrite !app_nil_r in *.
    rewrite X, Y. unfold marks_of_suite in *. destruct (g_absent g); cbn [orb andb negb] in *; [rewrite !app_nil_r; auto|].
    split; [apply add_tags_ok; exact F|]. destruct (g_filtered g); cbn in *; [rewrite app_nil_r; reflexivity|]. apply add_tags_ok; exact F2. }
  destruct (g_absent g) eqn:A; [|destruct (g_filtered g) eqn:B; [|destruct (N.testbit lists 4) eqn:L]]; cbn [negb andb fst snd]; rewrite ?andb_false_r; cbn [andb] in *; (split; [constructor|]);
    cbn [u_suites tags u_tags suites s_cases s_todos cases todos u_cases u_todos fst snd]; rewrite ?entries_app, ?entries_upto, ?app_nil_r, ?count_app, ?count_one, ?Z; cbn [g_absent g_filtered upto]; rewrite ?A, ?B, ?L; cbn [negb andb]; rewrite ?andb_false_r, ?N.add_0_r; try lia; auto; try reflexivity.
  exists (str "SUITE-" ++ dec (u_suites st + 1) ++ str ". " ++ g_name g ++ str " " ++ basefile (g_filine g) ++ format_tags lists (g_tags g)). split; [reflexivity|].
  exists (dec (u_suites st + 1)), (g_name g ++ str " " ++ basefile (g_filine g) ++ format_tags lists (g_tags g)). split; [|split; [apply described_ok|reflexivity]].
  rewrite d. apply dec_ok.
Qed.

Lemma entry_step : forall pre g before st e, inv (pre ++ [upto g before]) before st ->
  inv (pre ++ [upto g (before ++ [e])]) (before ++ [e]) (fst (on_case_start lists st g e)) /\
  (if entry_listed lists e then exists l, snd (on_case_start lists st g e) = [l] /\ entry_row lists pre g before e l else snd (on_case_start lists st g e) = []).
Proof.
  intros pre g before st e0 [a b c d e f h i j].
  assert (T : few_tags (pre ++ [upto g (before ++ [e0])]) ->
    fold_left (add_tag false) (e_tags e0) (tags st) = table (marks true (pre ++ [upto g (before ++ [e0])])) /\
    (if e_filtered e0 then u_tags st else fold_left (add_tag false) (e_tags e0) (u_tags st)) = table (marks false (pre ++ [upto g (before ++ [e0])]))).
  { intro F. destruct (j (few_entries _ _ _ _ F)) as [X Y]. pose proof (few_false _ F) as F2. unfold few_tags, tag_names in F, F2. rewrite !marks_app, !marks_upto in *. rewrite !flat_map_app in *. cbn [flat_map] in *. rewrite !app_nil_r in *.
    rewrite X, Y. rewrite !app_assoc in *. unfold marks_of_entry in *. cbn [orb] in *. split; [apply add_tags_ok; exact F|].
    destruct (e_filtered e0); cbn [negb] in *; [rewrite app_nil_r; reflexivity|]. apply add_tags_ok; exact F2. }
  rewrite entries_app, entries_upto in *. rewrite count_app in *.
  assert (R : forall w, w = word g e0 ->
     entry_row lists pre g before e0 ((if list_suite lists then str " " ++ w ++ str "/" ++ dec (count (entry_listed lists) before + 1) ++ str "-" ++ dec (count (entry_listed lists) (flat_map g_entries pre ++ before) + 1) ++ str ". "
                else str " " ++ w ++ str "-" ++ dec (count (entry_listed lists) (flat_map g_entries pre ++ before) + 1) ++ str ". ") ++ e_name e0 ++ str " " ++ basefile (e_filine e0) ++ format_tags lists (e_tags e0))).
  { intros w ->. eexists (dec _), (dec _), _. split; [apply dec_ok|]. split; [apply dec_ok|]. split; [apply described_ok|]. rewrite bit_suite.
    destruct (N.testbit lists 4); rewrite <- ?app_assoc; reflexivity. }
  assert (Q1 : count (entry_listed lists) before = count (case_listed lists) before + count (todo_listed lists) before) by apply listed_split.
  assert (Q2 : count (entry_listed lists) (flat_map g_entries pre ++ before) = u_cases st + u_todos st).
  { rewrite listed_split, !count_app, e, f. unfold entries. lia. }
  assert (Z1 : case_listed lists e0 = N.testbit lists 8 && negb (e_todo e0) && negb (e_filtered e0)) by reflexivity.
  assert (Z2 : todo_listed lists e0 = N.testbit lists 12 && e_todo e0 && negb (e_filtered e0)) by reflexivity.
  unfold on_case_start, word in *. rewrite bit_todo, bit_case.
  destruct (e_todo e0) eqn:A, (e_filtered e0) eqn:B; [| | |]; cbn [negb andb]; [|destruct (N.testbit lists 12) eqn:L| |destruct (N.testbit lists 8) eqn:L];
    (split; [constructor; cbn [u_suites tags u_tags suites s_cases s_todos cases todos u_cases u_todos fst snd];
      rewrite ?entries_app, ?entries_upto, ?count_app, ?count_one in *; rewrite ?Z1, ?Z2; rewrite ?A, ?B, ?L; cbn [negb andb]; rewrite ?andb_false_r, ?N.add_0_r; cbn [andb]; rewrite ?N.add_0_r; try lia; auto|]);
    change (entry_listed lists e0) with (case_listed lists e0 || todo_listed lists e0); rewrite Z1, Z2, ?A, ?B, ?L; cbn [negb andb orb]; rewrite ?andb_false_r; cbn [andb orb]; cbn [fst snd]; try reflexivity;
    (eexists; split; [reflexivity|]); cbn [u_suites tags u_tags suites s_cases s_todos cases todos u_cases u_todos fst snd].
  - replace (s_cases st + (s_todos st + 1)) with (count (entry_listed lists) before + 1) by lia. replace (u_cases st + (u_todos st + 1)) with (count (entry_listed lists) (flat_map g_entries pre ++ before) + 1) by lia. apply R. destruct (g_absent g); reflexivity.
  - replace (s_cases st + 1 + s_todos st) with (count (entry_listed lists) before + 1) by lia. replace (u_cases st + 1 + u_todos st) with (count (entry_listed lists) (flat_map g_entries pre ++ before) + 1) by lia. apply R. destruct (g_absent g); reflexivity.
Qed.

Lemma entries_run : forall es pre g before st, inv (pre ++ [upto g before]) before st ->
  inv (pre ++ [upto g (before ++ es)]) (before ++ es) (fst (run_entries lists st g es)) /\ EntryRows lists pre g before es (snd (run_entries lists st g es)).
Proof.
  induction es as [|e es IH]; intros pre g before st H; cbn [run_entries].
  - rewrite app_nil_r. split; [exact H|constructor].
  - destruct (entry_step pre g before st e H) as [H1 R]. destruct (on_case_start lists st g e) as [st1 x] eqn:E1. cbn [fst snd] in *.
    destruct (IH pre g (before ++ [e]) st1 H1) as [H2 R2]. destruct (run_entries lists st1 g es) as [st2 y]. cbn [fst snd] in *.
    rewrite <- app_assoc in H2. split; [exact H2|]. destruct (entry_listed lists e) eqn:L.
    + destruct R as (l & -> & R). cbn. constructor; assumption.
    + rewrite R. cbn. constructor; assumption.
Qed.
Lemma upto_all : forall g, upto g (g_entries g) = g. Proof. intros []. reflexivity. Qed.
Lemma groups_run : forall gs pre es st, inv pre es st ->
  (exists es', inv (pre ++ gs) es' (fst (run_groups lists st gs))) /\ Rows lists pre gs (snd (run_groups lists st gs)).
Proof.
  induction gs as [|g gs IH]; intros pre es st H; cbn [run_groups].
  - rewrite app_nil_r. split; [exists es; exact H|constructor].
  - destruct (suite_step pre es st g H) as [H1 R1]. destruct (on_suite_start lists st g) as [st1 x]. cbn [fst snd] in *.
    destruct (entries_run (g_entries g) pre g [] st1 H1) as [H2 R2]. destruct (run_entries lists st1 g (g_entries g)) as [st2 y]. cbn [fst snd app] in *. rewrite upto_all in H2.
    destruct (IH _ _ _ H2) as [[es' H3] R3]. destruct (run_groups lists st2 gs) as [st3 z]. cbn [fst snd] in *. rewrite <- app_assoc in H3.
    split; [exists es'; exact H3|]. destruct (suite_listed lists g) eqn:L.
    + destruct R1 as (l & -> & R1). cbn. constructor; assumption.
    + rewrite R1. cbn. constructor; assumption.
Qed.
Lemma initial_inv : inv [] [] initial.
Proof. constructor; try reflexivity. intros _. split; reflexivity. Qed.
Lemma listing_run : forall gs, exists st es, inv gs es st /\ exists rows, listing lists gs = rows ++ on_runner_endup lists st /\ Rows lists [] gs rows.
Proof.
  intro gs. destruct (groups_run gs [] [] initial initial_inv) as [[es H] R]. unfold listing. destruct (run_groups lists initial gs) as [st rows]. cbn [fst snd app] in *.
  exists st, es. split; [exact H|]. exists rows. auto.
Qed.

(** last line *)
Lemma units_ok : forall n u, units n u = plural n u.
Proof. intros. unfold units, plural. destruct (N.ltb_spec 1 n), (N.leb_spec n 1); try reflexivity; lia. Qed.
Lemma dec_nonempty : forall n, dec n <> [].
Proof. intro n. apply (dec_ok n). Qed.
(** texts of parts *)
Fixpoint texts (l : list (N * bytes)) : bytes :=
  match l with [] => [] | [(n, w)] => dec n ++ str " " ++ w | (n, w) :: r => dec n ++ str " " ++ w ++ str ", " ++ texts r end.
Lemma texts_joined : forall l, Joined l (texts l).
Proof.
  induction l as [|[n w] [|y l] IH]; [constructor|constructor; apply dec_ok|]. cbn [texts]. constructor; [apply dec_ok|discriminate|exact IH].
Qed.
Lemma texts_nil : forall l, texts l = [] <-> l = [].
Proof. intros [|[n w] [|y l]]; split; intro H; try reflexivity; try discriminate; cbn [texts] in H; apply app_eq_nil in H as [D _]; apply dec_nonempty in D; destruct D. Qed.
Lemma texts_snoc : forall l n w, texts (l ++ [(n, w)]) = texts l ++ comma_if (texts l) ++ dec n ++ str " " ++ w.
Proof.
  induction l as [|[m v] l IH]; intros n w; [reflexivity|]. destruct l as [|y l].
  - cbn [app texts]. destruct (dec m ++ str " " ++ v) eqn:E; [destruct (dec m) eqn:D; [apply dec_nonempty in D; destruct D|discriminate]|]. cbn [comma_if]. rewrite <- E, <- !app_assoc. reflexivity.
  - cbn [app]. change (texts ((m, v) :: y :: l ++ [(n, w)])) with (dec m ++ str " " ++ v ++ str ", " ++ texts ((y :: l) ++ [(n, w)])). rewrite IH.
    change (texts ((m, v) :: y :: l)) with (dec m ++ str " " ++ v ++ str ", " ++ texts (y :: l)).
    assert (C : comma_if (dec m ++ str " " ++ v ++ str ", " ++ texts (y :: l)) = str ", ") by (destruct (dec m) eqn:D; [apply dec_nonempty in D; destruct D|reflexivity]).
    rewrite C. assert (C2 : comma_if (texts (y :: l)) = str ", ").
    { destruct (texts (y :: l)) eqn:D; [apply texts_nil in D; discriminate|reflexivity]. }
    rewrite C2, <- !app_assoc. reflexivity.
Qed.
Lemma add_count_ok : forall l want n u, add_count want n u (texts l) = texts (l ++ part want n u).
Proof. intros. unfold add_count, part. destruct want; [|rewrite app_nil_r; reflexivity]. rewrite texts_snoc, units_ok. reflexivity. Qed.
Lemma add_filtered_ok : forall l want all un u, un <= all -> add_filtered want all un u (texts l) = texts (l ++ filtered_part want (all - un) u).
Proof.
  intros l want all un u H. unfold add_filtered, filtered_part. destruct want; cbn [andb]; [|rewrite app_nil_r; reflexivity].
  destruct (N.ltb_spec un all), (N.eqb_spec (all - un) 0); try lia; cbn [negb]; [|rewrite app_nil_r; reflexivity].
  rewrite texts_snoc, units_ok. reflexivity.
Qed.

Lemma count_le : forall A (p q : A -> bool) l, (forall x, p x = true -> q x = true) -> count p l <= count q l.
Proof.
  induction l as [|x l IH]; intro H; [reflexivity|]. specialize (IH H). change (x :: l) with ([x] ++ l). rewrite !count_app, !count_one. specialize (H x). destruct (p x), (q x); try lia; specialize (H eq_refl); discriminate.
Qed.
Lemma count_rest : forall A (p q r : A -> bool) l, (forall x, r x = p x || q x) -> (forall x, p x && q x = false) -> count r l = count p l + count q l.
Proof.
  induction l as [|x l IH]; intros H K; [reflexivity|]. specialize (IH H K). change (x :: l) with ([x] ++ l). rewrite !count_app, !count_one, H. specialize (K x). destruct (p x), (q x); cbn [orb andb] in *; try lia; discriminate.
Qed.

Lemma names_rest : forall gs, N.of_nat (length (tag_names true gs)) - N.of_nat (length (tag_names false gs)) =
  count (fun n => if in_dec same_name n (tag_names false gs) then false else true) (tag_names true gs) /\ N.of_nat (length (tag_names false gs)) <= N.of_nat (length (tag_names true gs)).
Proof.
  intro gs. set (F := tag_names false gs). set (T := tag_names true gs).
  assert (I1 : incl F T). { intros x X. apply (proj1 (distinct_in _ _)) in X. apply (proj2 (distinct_in _ _)). apply in_map_iff in X as (m & <- & M). apply in_map. apply marks_sub, M. }
  assert (D1 : NoDup F) by apply distinct_nodup. assert (D2 : NoDup T) by apply distinct_nodup.
  assert (E : count (fun n => if in_dec same_name n F then true else false) T = N.of_nat (length F)).
  { unfold count. f_equal. apply Nat.le_antisymm; apply NoDup_incl_length.
    - apply NoDup_filter, D2. - intros x X. apply filter_In in X as [_ X]. destruct (in_dec same_name x F); [assumption|discriminate].
    - exact D1. - intros x X. apply filter_In. split; [apply I1, X|]. destruct (in_dec same_name x F); tauto. }
  assert (E2 : N.of_nat (length T) = count (fun n => if in_dec same_name n F then true else false) T + count (fun n => if in_dec same_name n F then false else true) T).
  { rewrite <- (count_rest _ _ _ (fun _ => true)).
    - unfold count. f_equal. f_equal. clear. induction T as [|x T IH]; [reflexivity|]. cbn. rewrite <- IH. reflexivity.
    - intro x. destruct (in_dec same_name x F); reflexivity.
    - intro x. destruct (in_dec same_name x F); reflexivity. }
  lia.
Qed.

Lemma endup_ok : forall gs es st, inv gs es st -> few_tags gs ->
  on_runner_endup lists st = (if list_tags lists then tag_lines 0 (table (marks false gs)) else []) ++ [str "Listing " ++ texts (parts lists gs)].
Proof.
  intros gs es st [a b c d e f h i j] F. destruct (j F) as [X Y]. unfold on_runner_endup. rewrite X, Y, bit_suite, bit_case, bit_todo, bit_tags, a, b, c, d, e, f. f_equal. f_equal. f_equal.
  unfold table. rewrite !map_length. fold (tag_names true gs). fold (tag_names false gs). destruct (names_rest gs) as [R1 R2].
  change (add_count (N.testbit lists 4) (count (suite_listed lists) gs) (str "suite") []) with (add_count (N.testbit lists 4) (count (suite_listed lists) gs) (str "suite") (texts [])).
  rewrite !add_count_ok. rewrite !add_filtered_ok; try exact R2; try (apply count_le; intros x; unfold suite_listed, case_listed, todo_listed; rewrite !andb_true_iff; tauto).
  unfold parts. rewrite R1. cbn [app]. rewrite <- !app_assoc. f_equal. f_equal. f_equal. f_equal. f_equal.
  assert (G : forall w n m u, (w = true -> n = m) -> filtered_part w n u = filtered_part w m u) by (intros w n m u H; destruct w; [rewrite H; reflexivity|reflexivity]).
  f_equal; [apply G; intro W|f_equal; [apply G; intro W|f_equal; apply G; intro W]].
  - rewrite (count_rest _ (suite_listed lists) (fun g => negb (g_absent g) && g_filtered g) (fun g => negb (g_absent g))); [lia| |]; intro x; unfold suite_listed; rewrite W; destruct (g_absent x), (g_filtered x); reflexivity.
  - rewrite (count_rest _ (case_listed lists) (fun e => negb (e_todo e) && e_filtered e) (fun e => negb (e_todo e))); [lia| |]; intro x; unfold case_listed; rewrite W; destruct (e_todo x), (e_filtered x); reflexivity.
  - rewrite (count_rest _ (todo_listed lists) (fun e => e_todo e && e_filtered e) e_todo); [lia| |]; intro x; unfold todo_listed; rewrite W; destruct (e_todo x), (e_filtered x); reflexivity.
Qed.
Lemma so_many_ok : forall n u, so_many n u (if n =? 0 then [] else str " " ++ dec n ++ str " " ++ units n u).
Proof. intros. destruct (N.eqb_spec n 0) as [E|E]; [left; auto|right]. split; [exact E|]. exists (dec n). rewrite units_ok. split; [apply dec_ok|reflexivity]. Qed.
Lemma tag_lines_ok : forall gs ns i, TagRows gs i ns (tag_lines i (map (row_of (marks false gs)) ns)).
Proof.
  induction ns as [|n ns IH]; intro i; cbn [map tag_lines]; constructor; [|apply IH]. eexists (dec i), _, _. split; [apply dec_ok|].
  split; [apply so_many_ok|]. split; [apply so_many_ok|]. reflexivity.
Qed.
End L.

Lemma rows_ok : forall lists gs, exists rows rest, listing lists gs = rows ++ rest /\ Rows lists [] gs rows.
Proof. intros. destruct (listing_run lists gs) as (st & es & _ & rows & E & R). exists rows, (on_runner_endup lists st). auto. Qed.
Lemma listing_ok : forall lists gs, few_tags gs -> exists rows tagrows total,
  listing lists gs = rows ++ tagrows ++ [str "Listing " ++ total] /\ Rows lists [] gs rows /\
  TagRows gs 0 (if N.testbit lists 16 then tag_names false gs else []) tagrows /\ Joined (parts lists gs) total.
Proof.
  intros lists gs F. destruct (listing_run lists gs) as (st & es & V & rows & E & R).
  exists rows, (if list_tags lists then tag_lines 0 (table (marks false gs)) else []), (texts (parts lists gs)). rewrite E, (endup_ok lists gs es st V F).
  split; [reflexivity|]. split; [exact R|]. split; [|apply texts_joined]. rewrite bit_tags. destruct (N.testbit lists 16); [apply tag_lines_ok|constructor].
Qed.

Lemma entry_rows_length : forall lists pre g before es rows, EntryRows lists pre g before es rows -> N.of_nat (length rows) = count (entry_listed lists) es.
Proof.
  induction 1 as [|before e r line rows L R H IH|before e r rows L H IH]; [reflexivity| |]; change (e :: r) with ([e] ++ r); rewrite count_app, count_one, L, <- IH; cbn [length]; lia.
Qed.
Lemma rows_length : forall lists pre gs rows, Rows lists pre gs rows -> N.of_nat (length rows) = count (suite_listed lists) gs + count (entry_listed lists) (entries gs).
Proof.
  induction 1 as [|pre g r line es rows L R E H IH|pre g r es rows L E H IH]; [reflexivity| |]; apply entry_rows_length in E;
    change (g :: r) with ([g] ++ r); rewrite entries_app, !count_app, count_one, L; replace (entries [g]) with (g_entries g) by (unfold entries; cbn; rewrite app_nil_r; reflexivity);
    cbn [length]; rewrite ?Nat2N.inj_succ, app_length; lia.
Qed.
Lemma rows_all : forall lists gs rows, Rows lists [] gs rows ->
  N.of_nat (length rows) = count (suite_listed lists) gs + count (case_listed lists) (entries gs) + count (todo_listed lists) (entries gs).
Proof. intros lists gs rows H. apply rows_length in H. rewrite H, listed_split. lia. Qed.

(** every listed one has its line *)
Lemma entry_row_in : forall lists pre g before es rows, EntryRows lists pre g before es rows -> forall a e b, es = a ++ e :: b -> entry_listed lists e = true ->
  exists line, In line rows /\ entry_row lists pre g (before ++ a) e line.
Proof.
  induction 1 as [|before x r line rows L R H IH|before x r rows L H IH]; intros a e b E K.
  - destruct a; discriminate.
  - destruct a as [|y a]; injection E as <- E.
    + exists line. rewrite app_nil_r. split; [left; reflexivity|exact R].
    + destruct (IH _ _ _ E K) as (l & I1 & Q). exists l. split; [right; exact I1|]. rewrite <- app_assoc in Q. exact Q.
  - destruct a as [|y a]; injection E as <- E; [congruence|]. destruct (IH _ _ _ E K) as (l & I1 & Q). exists l. split; [exact I1|]. rewrite <- app_assoc in Q. exact Q.
Qed.
Lemma row_in : forall lists pre gs rows, Rows lists pre gs rows -> forall a g b, gs = a ++ g :: b ->
  (suite_listed lists g = true -> exists line, In line rows /\ suite_row lists (pre ++ a) g line) /\
  (forall x e y, g_entries g = x ++ e :: y -> entry_listed lists e = true -> exists line, In line rows /\ entry_row lists (pre ++ a) g x e line).
Proof.
  induction 1 as [|pre g0 r line es rows L R E H IH|pre g0 r es rows L E H IH]; intros a g b Q.
  - destruct a; discriminate.
  - destruct a as [|g1 a]; injection Q as <- Q.
    + rewrite app_nil_r. split; [intros _; exists line; split; [left; reflexivity|exact R]|]. intros x e y X K.
      destruct (entry_row_in _ _ _ _ _ _ E _ _ _ X K) as (l & I1 & W). exists l. split; [right; apply in_or_app; left; exact I1|exact W].
    + destruct (IH _ _ _ Q) as [P1 P2]. rewrite <- app_assoc in *. split.
      * intro K. destruct (P1 K) as (l & I1 & W). exists l. split; [right; apply in_or_app; right; exact I1|exact W].
      * intros x e y X K. destruct (P2 _ _ _ X K) as (l & I1 & W). exists l. split; [right; apply in_or_app; right; exact I1|exact W].
  - destruct a as [|g1 a]; injection Q as <- Q.
    + rewrite app_nil_r. split; [congruence|]. intros x e y X K.
      destruct (entry_row_in _ _ _ _ _ _ E _ _ _ X K) as (l & I1 & W). exists l. split; [apply in_or_app; left; exact I1|exact W].
    + destruct (IH _ _ _ Q) as [P1 P2]. rewrite <- app_assoc in *. split.
      * intro K. destruct (P1 K) as (l & I1 & W). exists l. split; [apply in_or_app; right; exact I1|exact W].
      * intros x e y X K. destruct (P2 _ _ _ X K) as (l & I1 & W). exists l. split; [apply in_or_app; right; exact I1|exact W].
Qed.
Lemma each_listed : forall lists a g b,
  (suite_listed lists g = true -> exists line, In line (listing lists (a ++ g :: b)) /\ suite_row lists a g line) /\
  (forall x e y, g_entries g = x ++ e :: y -> entry_listed lists e = true -> exists line, In line (listing lists (a ++ g :: b)) /\ entry_row lists a g x e line).
Proof.
  intros lists a g b. destruct (rows_ok lists (a ++ g :: b)) as (rows & rest & E & R). destruct (row_in _ _ _ _ R _ _ _ eq_refl) as [P1 P2]. cbn [app] in *. rewrite E. split.
  - intro K. destruct (P1 K) as (l & I1 & W). exists l. split; [apply in_or_app; left; exact I1|exact W].
  - intros x e y X K. destruct (P2 _ _ _ X K) as (l & I1 & W). exists l. split; [apply in_or_app; left; exact I1|exact W].
Qed.

(** examples *)
Definition ex_groups : list group :=
  [mkgroup (str "alpha") (str "src/a.cpp:3") [str "fast"; str "net"] false false
     [mkentry (str "one") (str "src/a.cpp:5") [str "fast"] false false; mkentry (str "two") (str "a.cpp:9") [str "slow"] true false; mkentry (str "later") (str "C:\a.cpp:12") [] false true];
   mkgroup (str "beta") (str "b.cpp:1") [str "old"] true false [mkentry (str "three") (str "b.cpp:2") [] true false];
   mkgroup [] (str "b.cpp:7") [] false true [mkentry (str "alone") (str "b.cpp:7") [str "net"] false false]].
Lemma ex_listing : listing 0x11110 ex_groups =
  [str "SUITE-1. alpha a.cpp:3 fast net"; str " Case/1-1. one a.cpp:5 fast"; str " Todo/2-2. later a.cpp:12"; str " CASE/1-3. alone b.cpp:7 net";
   str "TAG-0. fast  1 suite 1 case"; str "TAG-1. net  1 suite 1 case";
   str "Listing 1 suite, 2 cases, 1 todo, 2 tags, 1 filtered suite, 2 filtered cases, 2 filtered tags"].
Proof. vm_compute. reflexivity. Qed.
Lemma ex_only_cases : listing 0x100 ex_groups = [str " Case-1. one a.cpp:5"; str " CASE-2. alone b.cpp:7"; str "Listing 2 cases, 2 filtered cases"].
Proof. vm_compute. reflexivity. Qed.
Lemma ex_few : few_tags ex_groups.
Proof. vm_compute. discriminate. Qed.

(** two rounds *)
Lemma rounds_double : exists lists gs, In (str "Listing 1 suite, 2 cases") (listing lists gs) /\ In (str "Listing 2 suites, 4 cases") (listing lists (gs ++ gs)).
Proof.
  exists 0x110, [mkgroup (str "alpha") (str "a.cpp:3") [] false false [mkentry (str "one") (str "a.cpp:5") [] false false; mkentry (str "two") (str "a.cpp:9") [] false false]].
  vm_compute. split; intuition.
Qed.
(** more tags than there is room for *)
Definition crowd : list group := map (fun i => mkgroup (str "s") (str "a.cpp:3") [dec (N.of_nat i)] false false []) (seq 0 1025).
Lemma crowd_names : Nat.eqb (length (tag_names false crowd)) 1025 = true.
Proof. vm_compute. reflexivity. Qed.
Lemma crowd_total : existsb (bytes_eqb (str "Listing 1024 tags")) (listing 0x10000 crowd) = true.
Proof. vm_compute. reflexivity. Qed.
Lemma crowd_rows : forallb (fun t => negb (bytes_eqb (firstn 9 t) (str "TAG-1024."))) (listing 0x10000 crowd) = true.
Proof. vm_compute. reflexivity. Qed.
Lemma crowd_lost : exists gs, length (tag_names false gs) = 1025%nat /\ In (str "Listing 1024 tags") (listing 0x10000 gs) /\
  forall line, In line (listing 0x10000 gs) -> firstn 9 line <> str "TAG-1024.".
Proof.
  exists crowd. split; [apply Nat.eqb_eq, crowd_names|]. split.
  - destruct (proj1 (existsb_exists _ _) crowd_total) as (x & X & E). apply bytes_eqb_eq in E. rewrite E. exact X.
  - intros line H. pose proof (proj1 (forallb_forall _ _) crowd_rows line H) as F. cbv beta in F. apply negb_true_iff, bytes_eqb_neq in F. exact F.
Qed.
