(** Proofs about the reports of mocks: lines. *)
From Coq Require Import List NArith ZArith Bool Arith Lia.
From Verif Require Import Base LineModel LineSpec JunitModel JunitSpec JunitProofs StrdiffSpec MessageModel MessageSpec MessageProofs MessageProofs2 MockModel ValueModel ValueSpec ValueProofs ValueProofs2 MockmsgModel MockmsgSpec MockmsgProofs.
Import ListNotations.
Local Open Scope N_scope.

(** ** one expectation *)
Lemma bounds_ok b : sensible b -> (0 <= lowest b <= highest b)%Z /\ (highest b <= unlimited)%Z /\ forall n, met b n = mkcheckin n (lowest b) (highest b).
Proof. destruct b; cbn; unfold unlimited; intro H; (split; [lia|split; [lia|reflexivity]]). Qed.
Lemma satisfied_ok b n : sensible b -> (0 <= n <= unlimited)%Z -> is_satisfied (met b n) || is_saturated (met b n) = true <-> within b n.
Proof.
  intros S H. rewrite orb_true_iff. unfold is_satisfied, is_saturated, met. destruct b; cbn in *; unfold unlimited in *; rewrite ?andb_true_iff, ?Z.leb_le, ?Z.eqb_eq, ?Z.ltb_lt; lia.
Qed.
Lemma kind_word b : kind b = word b. Proof. destruct b; reflexivity. Qed.
Lemma word_ok b : nospace (word b) /\ ~ In 27 (word b). Proof. destruct b; split; apply not_in; reflexivity. Qed.
Lemma unwords_not c ws : c <> 32 -> Forall (fun w => ~ In c w) ws -> ~ In c (unwords ws).
Proof.
  intros D F. induction F as [|w ws H F IH]; [intros []|]. destruct ws as [|v ws]; [exact H|]. change (unwords (w :: v :: ws)) with (w ++ 32 :: unwords (v :: ws)).
  intro I. apply in_app_iff in I. destruct I as [I|[I|I]]; [exact (H I)|congruence|exact (IH I)].
Qed.
Lemma vis_whence total i b : visible (whence total i (word b)) = if 1 <? total then 32 :: unwords [str "when"; index_th i; word b] else [].
Proof.
  unfold whence. destruct (1 <? total); [|reflexivity]. rewrite !vis_app, vis_gray by (apply not_in; reflexivity). rewrite (vis_word (index_th i)) by (apply calm, ordinal_ok). rewrite (vis_word (str " ")) by reflexivity.
  rewrite vis_color by apply word_ok. cbn [unwords]. reflexivity.
Qed.
Lemma check_reads name total i b n l : sensible b -> (0 <= n <= unlimited)%Z -> ~ In 27 name -> check_line name total i (met b n) (kind b) = Some l ->
  ~ within b n /\ read name (visible l) = Some (lowest b, highest b, n, if 1 <? total then Some (Z.of_N i + 1, word b)%Z else None).
Proof.
  intros S H NE. unfold check_line. destruct (is_satisfied (met b n) || is_saturated (met b n)) eqn:E; [discriminate|]. intro Q. match type of Q with Some ?x = Some l => assert (K : x = l) by congruence end. rewrite <- K. clear Q K.
  split; [intro W; apply (satisfied_ok b n S H) in W; congruence|]. destruct (bounds_ok b S) as (B1 & B2 & ->). rewrite kind_word.
  destruct (range_words n (lowest b) (highest b) B1 B2) as (rs & R1 & R2 & R3 & R4 & R5). destruct (count_words n (lowest b) (highest b) ltac:(lia)) as (cs & C1 & C2 & C3 & C4 & C5).
  rewrite !vis_app, vis_whence, R1, C1. rewrite (vis_word name) by (apply calm; exact NE). rewrite vis_gray by (apply not_in; reflexivity). rewrite !vis_delta by (apply unwords_not; [discriminate|assumption]).
  rewrite !(vis_word (str _)) by reflexivity. destruct (ordinal_ok i) as (O1 & O2 & _). destruct (word_ok b) as (W1 & _).
  set (tailws := if 1 <? total then [str "when"; index_th i; word b] else []).
  assert (X : name ++ str "()" ++ str " expected " ++ unwords rs ++ str " but actually " ++ unwords cs ++ str " called" ++ (if 1 <? total then 32 :: unwords [str "when"; index_th i; word b] else []) =
              (name ++ str "() expected ") ++ unwords (rs ++ [str "but"; str "actually"] ++ cs ++ [str "called"] ++ tailws)).
  { rewrite unwords_app by (try assumption; discriminate). rewrite (unwords_app [str "but"; str "actually"]) by (destruct cs; discriminate). rewrite (unwords_app cs) by (try assumption; discriminate).
    unfold tailws. destruct (1 <? total).
    - rewrite (unwords_app [str "called"]) by discriminate. rewrite <- !app_assoc. f_equal.
    - rewrite app_nil_r. cbn [unwords]. rewrite <- !app_assoc. f_equal. }
  rewrite X. unfold read. rewrite MockmsgProofs.behind_app. rewrite words_unwords.
  - rewrite R5. cbn [app]. change (bytes_eqb (str "but") (str "but") && bytes_eqb (str "actually") (str "actually")) with true. cbv iota. rewrite C5. change (bytes_eqb (str "called") (str "called")) with true. cbv iota.
    unfold tailws. destruct (1 <? total); [|reflexivity]. cbn [read_place]. change (bytes_eqb (str "when") (str "when")) with true. cbv iota. rewrite O1. reflexivity.
  - destruct rs; [congruence|discriminate].
  - apply Forall_app. split; [exact R3|]. constructor; [apply not_in; reflexivity|]. constructor; [apply not_in; reflexivity|]. apply Forall_app. split; [exact C3|]. constructor; [apply not_in; reflexivity|].
    unfold tailws. destruct (1 <? total); [|constructor]. constructor; [apply not_in; reflexivity|]. constructor; [exact O2|]. constructor; [exact W1|constructor].
Qed.
Lemma check_none name total i b n : sensible b -> (0 <= n <= unlimited)%Z -> check_line name total i (met b n) (kind b) = None <-> within b n.
Proof. intros S H. rewrite <- (satisfied_ok b n S H). unfold check_line. destruct (is_satisfied (met b n) || is_saturated (met b n)); split; congruence. Qed.

(** ** a printed line *)
Lemma vis_indent n : visible (indent [] n) = repeat 32 n.
Proof. unfold visible. destruct (indent_ok n) as (-> & _). unfold letters. rewrite map_map. cbn. apply map_id. Qed.
Lemma vis_number i : visible (number (Some i)) = dec i ++ str ". ".
Proof.
  unfold visible. cbn [number]. destruct (leaves_printf (dec i ++ str ". ")) as (E & _); [apply no_esc; intro I; apply in_app_iff in I; destruct I as [I|I]; [exact (dec_not i 27 ltac:(lia) I)|cbn in I; lia]|].
  rewrite E. unfold grayed, letters. rewrite map_map. cbn. apply map_id.
Qed.
Lemma decimal_dec i : decimal (dec i) i. Proof. apply dec_ok. Qed.

(** ** all expectations *)
Lemma loop_ok name total es i : ~ In 27 name -> Forall (fun p => sensible (fst p) /\ (0 <= snd p <= unlimited)%Z) es ->
  exists l ns, broken i es l /\ check_loop name total i es = ns /\
    Forall2 (fun p n => exists x, n = Note (Some (fst p)) x [] [] /\ read name (visible x) = Some (lowest (fst (snd p)), highest (fst (snd p)), snd (snd p), if 1 <? total then Some (Z.of_N (fst p) + 1, word (fst (snd p)))%Z else None)) l ns.
Proof.
  intros NE F. revert i. induction F as [|[b n] es (S & H) F IH]; intro i; [exists [], []; repeat constructor|]. cbn [fst snd] in *. destruct (IH (i + 1)) as (l & ns & B & E & A). cbn [check_loop]. rewrite E.
  destruct (check_line name total i (met b n) (kind b)) as [x|] eqn:Q.
  - destruct (check_reads name total i b n x S H NE Q) as (W & R). exists ((i, (b, n)) :: l), (Note (Some i) x [] [] :: ns). split; [constructor; assumption|]. split; [reflexivity|]. constructor; [|exact A]. exists x. split; [reflexivity|exact R].
  - exists l, ns. split; [constructor; [apply (check_none name total i b n S H); exact Q|exact B]|]. split; [reflexivity|exact A].
Qed.

(** ** the signature *)
Lemma vis_arguments types i : i <> 0 -> Forall (fun t => ~ In 27 t) types -> visible (argument_loop i None (str "cyan") types) = flat_map (fun t => str ", " ++ t) types.
Proof.
  intros H F. revert i H. induction F as [|t types T F IH]; intros i H; [reflexivity|]. cbn [argument_loop flat_map]. destruct (N.eqb_spec i 0); [congruence|]. rewrite !vis_app, vis_gray, vis_color, IH by (try exact T; try lia; apply not_in; reflexivity). rewrite <- app_assoc. reflexivity.
Qed.
Lemma joined_flat t types : joined (t :: types) = t ++ flat_map (fun t => str ", " ++ t) types.
Proof. revert t. induction types as [|u types IH]; intro t; [cbn; symmetry; apply app_nil_r|]. change (joined (t :: u :: types)) with (t ++ str ", " ++ joined (u :: types)). rewrite IH. cbn [flat_map]. rewrite <- app_assoc. reflexivity. Qed.
Lemma vis_argument types : Forall (fun t => ~ In 27 t) types -> visible (argument types None (str "cyan")) = str "(" ++ joined types ++ str ")".
Proof.
  intro F. unfold argument. rewrite !vis_app, !vis_gray by (apply not_in; reflexivity). f_equal. f_equal. destruct F as [|t types T F]; [reflexivity|]. cbn [argument_loop N.eqb]. rewrite !vis_app, vis_color by exact T.
  change (visible (gray [])) with (@nil N). rewrite vis_arguments by (try exact F; discriminate). rewrite joined_flat. reflexivity.
Qed.
Lemma vis_signature f : fine f -> visible (signature f) = str "MOCK<" ++ f_return f ++ str " " ++ f_name f ++ str "(" ++ joined (f_types f) ++ str ")>".
Proof.
  intros (A & B & C & _). unfold signature. rewrite !vis_app, !vis_gray, !vis_delta, vis_argument by (try assumption; apply not_in; reflexivity). rewrite !(vis_word (str _)) by reflexivity. rewrite <- !app_assoc. reflexivity.
Qed.
Lemma headed_ok f : fine f -> headed f (normal_message 0 None (signature f) (f_filine f)).
Proof.
  intro F. destruct (place_ok (f_filine f)) as (p & (P & _) & S); [apply F|]. exists p. split; [exact S|]. unfold normal_message. rewrite !vis_app, vis_indent, vis_signature by exact F. cbn [number]. unfold visible at 2. rewrite P. rewrite <- !app_assoc. reflexivity.
Qed.

Lemma check_ok f es : fine f -> Forall (fun p => sensible (fst p) /\ (0 <= snd p <= unlimited)%Z) es ->
  exists l, broken 0 es l /\ (l = [] -> check f es = None) /\
    (l <> [] -> exists n first rest, check f es = Some n /\ printed 0 n = first :: rest /\ headed f first /\ Forall2 (reported (f_name f) (length es)) l rest).
Proof.
  intros Fi F. destruct (loop_ok (f_name f) (N.of_nat (length es)) es 0) as (l & ns & B & E & A); [apply Fi|exact F|]. exists l. split; [exact B|]. unfold check. rewrite E.
  split; [intros ->; inversion A; reflexivity|]. intro NE. destruct A as [|p n l ns P A]; [congruence|]. exists (Note None (signature f) (f_filine f) (n :: ns)). eexists _, _. split; [reflexivity|]. split; [cbn [printed]; reflexivity|].
  split; [apply headed_ok; exact Fi|].
  assert (G : forall l ns, Forall2 (fun p n => exists x, n = Note (Some (fst p)) x [] [] /\ read (f_name f) (visible x) = Some (lowest (fst (snd p)), highest (fst (snd p)), snd (snd p), if 1 <? N.of_nat (length es) then Some (Z.of_N (fst p) + 1, word (fst (snd p)))%Z else None)) l ns ->
    Forall2 (reported (f_name f) (length es)) l ((fix all l := match l with [] => [] | x :: r => printed 1 x ++ all r end) ns)).
  { clear. intros l ns A. induction A as [|[i [b n]] x l ns (m & -> & R) A IH]; [constructor|]. cbn [printed app fst snd] in *. constructor; [|exact IH].
    exists (dec i), (visible m). split; [apply decimal_dec|]. split; [unfold normal_message; rewrite !vis_app, vis_indent, vis_number; change (visible (locate [])) with (@nil N); rewrite app_nil_r, <- app_assoc; reflexivity|].
    rewrite R. f_equal. f_equal. destruct (N.ltb_spec 1 (N.of_nat (length es))), (Nat.ltb_spec 1 (length es)); try reflexivity; lia. }
  exact (G (p :: l) (n :: ns) (Forall2_cons p n P A)).
Qed.

(** ** arguments *)
Lemma leaves_color s w : ~ In 27 w -> leaves [] (color [w] s) (letters (restyle ([27; 123] ++ s ++ [125]) []) w).
Proof.
  intro H. assert (L := leaves_brush s _ [w] eq_refl). unfold brush in L. unfold color. destruct L as (L1 & L2). split; [|exact L2]. etransitivity; [exact L1|]. cbn [ink]. rewrite (calm w H). apply app_nil_r.
Qed.
Lemma leaves_arguments types i j : i <> 0 -> Forall (fun t => ~ In 27 t) types -> leaves [] (argument_loop i (Some j) [] types) (flat_map (fun o => grayed [] (str ", ") ++ o) (marked i j types)).
Proof.
  intros H F. revert i H. induction F as [|t types T F IH]; intros i H; [apply leaves_nil|]. cbn [argument_loop marked flat_map]. destruct (N.eqb_spec i 0); [congruence|]. rewrite <- app_assoc.
  apply leaves_app; [apply leaves_gray; [apply c_none|reflexivity]|]. apply leaves_app; [|apply IH; lia]. rewrite (N.eqb_sym j i). destruct (i =? j); exact (leaves_color _ t T).
Qed.
Lemma separate_flat o os : separate (o :: os) = o ++ flat_map (fun o => grayed [] (str ", ") ++ o) os.
Proof. revert o. induction os as [|u os IH]; intro o; [cbn; symmetry; apply app_nil_r|]. change (separate (o :: u :: os)) with (o ++ grayed [] (str ", ") ++ separate (u :: os)). rewrite IH. cbn [flat_map]. rewrite <- app_assoc. reflexivity. Qed.
Lemma leaves_argument types j : Forall (fun t => ~ In 27 t) types -> leaves [] (argument types (Some j) []) (grayed [] (str "(") ++ separate (marked 0 j types) ++ grayed [] (str ")")).
Proof.
  intro F. unfold argument. apply leaves_app; [apply leaves_gray; [apply c_none|reflexivity]|]. apply leaves_app; [|apply leaves_gray; [apply c_none|reflexivity]].
  destruct F as [|t types T F]; [apply leaves_nil|]. cbn [argument_loop marked]. change (0 =? 0) with true. cbv iota. change (gray []) with (@nil bytes). cbn [app]. rewrite separate_flat. apply leaves_app; [|apply leaves_arguments; [discriminate|exact F]].
  rewrite (N.eqb_sym j 0). destruct (0 =? j); exact (leaves_color _ t T).
Qed.
Lemma leaves_whence total i b : exists w, leaves [] (whence total i (kind b)) w /\ (total <= 1 -> w = []) /\ (1 < total -> exists d s, decimal d (i + 1) /\ length s = 2%nat /\ map snd w = str " when " ++ d ++ s ++ str " " ++ word b).
Proof.
  rewrite kind_word. unfold whence. destruct (N.ltb_spec 1 total) as [L|L].
  - eexists. split; [apply leaves_app; [apply leaves_gray; [apply c_none|reflexivity]|]; apply leaves_app; [apply leaves_word, calm, ordinal_ok|]; apply leaves_app; [apply leaves_word; reflexivity|]; apply leaves_color, word_ok|].
    split; [lia|]. intros _. destruct (index_digits i) as (d & s & E & D & S & _). exists d, s. split; [exact D|]. split; [exact S|]. rewrite !map_app. unfold grayed, letters. rewrite !map_map. cbn [snd]. rewrite !map_id, E, <- !app_assoc. reflexivity.
  - exists []. split; [apply leaves_nil|]. split; [reflexivity|lia].
Qed.
Lemma explains_ok f total i j b : fine f -> explains f total i j (word b) (gray (str "on ") ++ [f_name f] ++ argument (f_types f) (Some j) [] ++ whence total i (kind b)).
Proof.
  intros (_ & B & C & _). destruct (leaves_whence total i b) as (w & W & W0 & W1).
  assert (L : leaves [] (gray (str "on ") ++ [f_name f] ++ argument (f_types f) (Some j) [] ++ whence total i (kind b)) (grayed [] (str "on ") ++ letters [] (f_name f) ++ (grayed [] (str "(") ++ separate (marked 0 j (f_types f)) ++ grayed [] (str ")")) ++ w)).
  { apply leaves_app; [apply leaves_gray; [apply c_none|reflexivity]|]. apply leaves_app; [apply leaves_word, calm; exact B|]. apply leaves_app; [apply leaves_argument; exact C|exact W]. }
  destruct L as (L1 & L2). split; [exact L2|]. exists w. split; [rewrite L1, <- !app_assoc; reflexivity|]. split; assumption.
Qed.
Lemma failing_ok f total i b fs l : fine f -> rejected 0 fs l -> exists s p ks, failing f total i (kind b) fs = Note None s p ks /\ headed f (normal_message 0 None s p) /\
  Forall2 (fun r n => let '(j, Note _ e q k) := r in exists x k', n = Note (Some j) (e ++ x) q k' /\ length k' = length k /\ explains f total i j (word b) x) l ks.
Proof.
  intros F R. unfold failing. eexists _, _, _. split; [reflexivity|]. split; [apply headed_ok; exact F|]. induction R as [i0|i0 r l R IH|i0 [s e q k] r l R IH]; cbn [tuple_fails set_seqno app map].
  - constructor.
  - exact IH.
  - constructor; [|exact IH]. cbn [explained]. eexists _, _. split; [reflexivity|]. split; [apply map_length|]. apply explains_ok. exact F.
Qed.

(** ** calls that nothing expects *)
Lemma unexpected_ok f args : fine f -> ValueSpec.quiet (VTuple args) ->
  exists first second o, printed 0 (unexpected f args) = [first; second] /\ headed f first /\ ValueSpec.shown [] true (VTuple args) o /\ closed second /\
    ink [] second = letters [] (str "   " ++ f_name f) ++ o ++ letters [str "red"; str "bold"] (str " unexpectedly") ++ letters [] (str " called").
Proof.
  intros F Q. destruct (display_ok [] true (VTuple args) ltac:(intros []) Q) as (S & B). unfold unexpected. eexists _, _, _. split; [cbn [printed app]; reflexivity|]. split; [apply headed_ok; exact F|]. split; [exact S|].
  assert (P : leaves [] (print true (VTuple args)) (ink [] (print true (VTuple args)))) by (split; [reflexivity|exact B]).
  assert (L : leaves [] (normal_message 1 None ([f_name f] ++ print true (VTuple args) ++ color [str " unexpectedly"] (str "red,bold") ++ [str " called"]) [])
    (letters [] (repeat 32 3) ++ [] ++ (letters [] (f_name f) ++ ink [] (print true (VTuple args)) ++ letters [str "red"; str "bold"] (str " unexpectedly") ++ letters [] (str " called")) ++ [])).
  { unfold normal_message. apply leaves_app; [apply (indent_ok 3)|]. apply leaves_app; [apply leaves_nil|]. apply leaves_app; [|apply leaves_nil]. apply leaves_app; [apply leaves_word, calm, F|]. apply leaves_app; [exact P|].
    apply leaves_app; [apply (leaves_color (str "red,bold")); apply not_in; reflexivity|]. apply leaves_word. reflexivity. }
  destruct L as (L1 & L2). split; [exact L2|]. etransitivity; [exact L1|]. rewrite app_nil_r. cbn [app]. rewrite letters_app, <- app_assoc. reflexivity.
Qed.

(** ** ordinals *)
Lemma ordinal_english i : i < 20 -> index_th i = dec (i + 1) ++ suffix (i + 1).
Proof.
  intro H. assert (C : forallb (fun j => bytes_eqb (index_th (N.of_nat j)) (dec (N.of_nat j + 1) ++ suffix (N.of_nat j + 1))) (seq 0 20) = true) by (vm_compute; reflexivity).
  rewrite forallb_forall in C. specialize (C (N.to_nat i)). rewrite N2Nat.id in C. apply bytes_eqb_eq, C, in_seq. lia.
Qed.
Lemma ordinal_good i : i < 20 -> exists d, decimal d (i + 1) /\ index_th i = d ++ suffix (i + 1).
Proof. intro H. exists (dec (i + 1)). split; [apply decimal_dec|apply ordinal_english; exact H]. Qed.
Lemma ordinal_bad : exists i, index_th i = str "21th" /\ str "21" ++ suffix (i + 1) = str "21st".
Proof. exists 20. split; [vm_compute; reflexivity|vm_compute; reflexivity]. Qed.

(** ** examples *)
Definition sample : function := mkfunction (str "int") (str "foobar") [str "int"; str "const char*"; str "double"] (str "test/t.cpp:12").
Lemma sample_fine : fine sample.
Proof. split; [|split; [|split; [repeat constructor|]]]; apply not_in; reflexivity. Qed.
Definition expectations : list (bounds * Z) := [(Once, 1%Z); (Between 2 4, 5%Z); (Any, 9%Z); (Atleast 3, 0%Z)].
Lemma expectations_sensible : Forall (fun p => sensible (fst p) /\ (0 <= snd p <= unlimited)%Z) expectations.
Proof. unfold expectations. repeat (constructor; [cbn; unfold unlimited; lia|]). constructor. Qed.
Lemma check_example : fine sample /\ Forall (fun p => sensible (fst p) /\ (0 <= snd p <= unlimited)%Z) expectations /\
  broken 0 expectations [(1, (Between 2 4, 5%Z)); (3, (Atleast 3, 0%Z))] /\
  option_map (fun n => map visible (printed 0 n)) (check sample expectations) =
    Some [str " MOCK<int foobar(int, const char*, double)> at t.cpp:12";
          str "   1. foobar() expected between 2 and 4 times but actually 5 times called when 2nd Between";
          str "   3. foobar() expected at least 3 times but actually never called when 4th Atleast"].
Proof.
  split; [exact sample_fine|]. split; [exact expectations_sensible|]. split; [|vm_compute; reflexivity].
  apply b_met; [reflexivity|]. apply b_not; [cbn; lia|]. apply b_met; [cbn; auto|]. apply b_not; [cbn; lia|]. apply b_nil.
Qed.
Definition refusal : list (list note) := [[]; [Note None [str "expected "] [] []]; [Note None [] (str "x.cpp:1") []]].
Lemma failing_example : fine sample /\ rejected 0 refusal [(1, Note None [str "expected "] [] []); (2, Note None [] (str "x.cpp:1") [])] /\
  match failing sample 3 1 (kind Any) refusal with
  | Note _ _ _ [Note s1 x1 _ _; Note s2 x2 _ _] => s1 = Some 1 /\ s2 = Some 2 /\ visible x1 = str "expected on foobar(int, const char*, double) when 2nd Any" /\
      ink [] x2 = grayed [] (str "on ") ++ letters [] (str "foobar") ++ grayed [] (str "(") ++ letters [[]] (str "int") ++ grayed [] (str ", ") ++ letters [[]] (str "const char*") ++ grayed [] (str ", ") ++
        letters [str "red"; str "bold"] (str "double") ++ grayed [] (str ")") ++ grayed [] (str " when ") ++ letters [] (str "2nd ") ++ letters [str "cyan"] (str "Any")
  | _ => False
  end.
Proof.
  split; [exact sample_fine|]. split; [apply r_good, r_bad, r_bad, r_nil|]. split; [reflexivity|]. split; [reflexivity|]. split; [vm_compute; reflexivity|vm_compute; reflexivity].
Qed.
Lemma unexpected_example : fine sample /\ ValueSpec.quiet (VTuple [VInt 4; VText (str "abc"); VBool true]) /\
  map visible (printed 0 (unexpected sample [VInt 4; VText (str "abc"); VBool true])) =
    [str " MOCK<int foobar(int, const char*, double)> at t.cpp:12"; str "   foobar(4, " ++ [34] ++ str "abc" ++ [34] ++ str ", true) unexpectedly called"].
Proof.
  split; [exact sample_fine|]. split; [|vm_compute; reflexivity]. repeat constructor; apply not_in; reflexivity.
Qed.
(** the second argument was refused by a matcher made of two, the first of which failed: the first type is marked *)
Lemma nested_bad : exists f fs x, fine f /\ (exists s e p q y, failing f 1 0 (kind Any) fs = Note None s p [Note (Some 1) e q [Note (Some 0) x y []]]) /\
  rejected 0 fs [(1, Note None [] [] [Note (Some 0) [] [] []])] /\ explains f 1 0 0 (word Any) x /\ ~ explains f 1 0 1 (word Any) x.
Proof.
  exists sample, [[]; [Note None [] [] [Note (Some 0) [] [] []]]]. eexists. split; [exact sample_fine|]. split; [eexists _, _, _, _, _; reflexivity|]. split; [apply r_good, r_bad, r_nil|].
  assert (E : explains sample 1 0 0 (word Any) (gray (str "on ") ++ [f_name sample] ++ argument (f_types sample) (Some 0) [] ++ whence 1 0 (kind Any))) by (apply explains_ok, sample_fine).
  split; [exact E|]. intros (_ & w & W & W0 & _). rewrite W0 in W by lia. destruct E as (_ & v & V & V0 & _). rewrite V0 in V by lia. cbn [app] in W, V. rewrite V in W. vm_compute in W. discriminate.
Qed.
