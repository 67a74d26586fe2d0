(** The likeness of JSON nodes and which members a JSON diff puts side by side. *)
From Coq Require Import List NArith ZArith QArith Bool Arith Lia.
From Verif Require Import Base FilterModel StrModel DiffModel DiffSpec JsonModel JsonSpec PrintModel PrintSpec SimilarModel SimilarSpec SimilarProofs SimilarProofs2.
Import ListNotations.
Local Open Scope Q_scope.

(** C94: the likeness of two leaves of one kind is that of their texts, or the mean of that and of that of the keys *)
Theorem C94_leaf : forall num cl k (e : value num) k' a qv qk, leaf e -> modest (leaf_text e) -> modest (leaf_text a) -> modest k -> modest k' -> kind_of e = kind_of a ->
  closeness (fold_str cl (leaf_text e)) (fold_str cl (leaf_text a)) qv -> closeness (fold_str cl k) (fold_str cl k') qk ->
  similarity cl k e k' a == match k, k' with [], [] => qv | _, _ => (qv + qk) / 2 end.
Proof. exact @leaf_score. Qed.
Print Assumptions C94_leaf.
Example C94_leaf_ex : closeness (str "ab") (str "ax") (1 # 2) /\ similarity false (str "k") (@Str Z (str "ab")) (str "k") (Str (str "ax")) == 3 # 4.
Proof.
  split; [|vm_compute; reflexivity]. right. split; [left; discriminate|]. exists 1%nat. split; [|vm_compute; reflexivity]. split.
  - eapply edits_more; [apply (edit_substitute _ [97%N] 98%N 120%N [])|constructor].
  - intros [|n] E; [inversion E|lia].
Qed.
(** two values of different kinds have only their keys in common *)
Theorem C94_kinds : forall num cl k (e : value num) k' a qk, modest k -> modest k' -> kind_of e <> kind_of a -> closeness (fold_str cl k) (fold_str cl k') qk ->
  similarity cl k e k' a == match k, k' with [], [] => 0 | _, _ => qk / 2 end.
Proof. exact @strange_score. Qed.
Print Assumptions C94_kinds.
(** nothing is more alike to a value than the value itself, under its key *)
Theorem C94_itself : forall num cl k (e : value num) k' a, modest_value e -> unique_keys num false e -> modest k -> (k = [] -> k' = []) -> similarity cl k e k' a <= similarity cl k e k e.
Proof. exact @self_greatest. Qed.
Print Assumptions C94_itself.
(** the search yields the first of the most alike, which must be above 1/5 *)
Theorem C94_search : forall num cl (e a : node num) al al', search cl e al = Some (a, al') <-> exists pre post, al = pre ++ a :: post /\ al' = pre ++ post /\ favourite (node_similarity cl) e pre a post.
Proof. exact @search_found. Qed.
Print Assumptions C94_search.
Theorem C94_search_none : forall num cl (e : node num) al, search cl e al = None <-> Forall (fun a => node_similarity cl e a <= 1 # 5) al.
Proof. exact @search_none. Qed.
Print Assumptions C94_search_none.
Definition members : list (node Z) := [(0%nat, (str "colour", Str (str "red"))); (1%nat, (str "size", Num 4%Z)); (2%nat, (str "sizes", Num 5%Z))].
Example C94_search_ex :
  search false (0%nat, (str "Size", Num 4%Z)) members = Some ((1%nat, (str "size", Num 4%Z)), [(0%nat, (str "colour", Str (str "red"))); (2%nat, (str "sizes", Num 5%Z))]) /\
  search false (0%nat, (str "x", Null)) members = None /\
  similarity false (str "Size") (Num 4%Z) (str "size") (Num 4%Z) == 7 # 8 /\ similarity false [] (Str (str "abcd")) [] (@Str Z (str "abxd")) == 3 # 4 /\
  similarity false (str "k") (Num 4%Z) (str "k") (Str (str "4")) == 1 # 2.
Proof. split; [vm_compute; reflexivity|]. split; [vm_compute; reflexivity|]. split; [vm_compute; reflexivity|]. split; vm_compute; reflexivity. Qed.
Example C94_itself_ex : modest_value (Obj [(str "a", Arr [@Str Z (str "x"); Null])]) /\ unique_keys Z false (Obj [(str "a", Arr [@Str Z (str "x"); Null])]).
Proof.
  assert (L1 : @leaf Z (Str (str "x"))) by (split; intros; discriminate). assert (L2 : @leaf Z Null) by (split; intros; discriminate).
  assert (M : forall s, s = str "x" \/ s = str "a" \/ s = [] -> modest s) by (intros s [->|[->| ->]]; split; [cbn; intuition discriminate|reflexivity|cbn; intuition discriminate|reflexivity|cbn; intuition discriminate|reflexivity]).
  split.
  - apply Mo_obj. constructor; [|constructor]. cbn [fst snd]. split; [apply M; auto|]. apply Mo_arr. constructor; [apply Mo_leaf; [exact L1|apply M; auto]|]. constructor; [apply Mo_leaf; [exact L2|apply M; auto]|constructor].
  - apply U_obj; [repeat constructor; cbn; tauto|]. constructor; [|constructor]. apply U_arr. constructor; [apply U_leaf; apply L1|]. constructor; [apply U_leaf; apply L2|constructor].
Qed.

(** the members of two objects: those without a namesake on the other side are matched in turn, each with its favourite of those left; the
    pairs share a row as partners; what is left on both sides is put side by side as unrelated *)
Theorem C94_rows : forall num show near pat n cl depth rel i ke le j ka la, whole (Obj le) -> whole (Obj la) -> (height (@Obj num le) <= n)%nat -> (height (@Obj num la) <= n)%nat ->
  NoDup (map (fun p => fold_str cl (fst p)) le) -> NoDup (map (fun p => fold_str cl (fst p)) la) ->
  exists h ch es al ps re ra, dual_of show near pat n cl depth rel (Some (i, (ke, Obj le))) (Some (j, (ka, Obj la))) = Dual h ch /\
    kept (lonely cl la) le es /\ kept (lonely cl le) la al /\ matched (likeness cl) es al ps re ra /\
    Forall (fun p => shares_row show ch (fst p) (snd p) false) ps /\
    forall x y m, nth_error re m = Some x -> nth_error ra m = Some y -> shares_row show ch x y true.
Proof. exact @rows. Qed.
Print Assumptions C94_rows.
(** that matching is determined *)
Theorem C94_unique : forall X (like : X -> X -> Q) es al ps es' al', matched like es al ps es' al' -> forall ps2 es2 al2, matched like es al ps2 es2 al2 -> ps = ps2 /\ es' = es2 /\ al' = al2.
Proof. exact @matched_unique. Qed.
Print Assumptions C94_unique.
(** what is shown as unrelated is not alike *)
Theorem C94_unrelated : forall X (like : X -> X -> Q) es al ps es' al', matched like es al ps es' al' -> forall e a, In e es' -> In a al' -> like e a <= 1 # 5.
Proof. exact @matched_rest. Qed.
Print Assumptions C94_unrelated.
(** a single member without namesake on either side: they share a row, as partners just if they are alike *)
Theorem C94_renamed : forall num show near pat n cl depth rel i ke l1 k v l2 j ka m1 k' w m2, let le := l1 ++ (k, v) :: l2 in let la := m1 ++ (k', w) :: m2 in
  whole (Obj le) -> whole (Obj la) -> (height (@Obj num le) <= n)%nat -> (height (@Obj num la) <= n)%nat ->
  NoDup (map (fun p => fold_str cl (fst p)) le) -> NoDup (map (fun p => fold_str cl (fst p)) la) ->
  lonely cl la (k, v) -> lonely cl le (k', w) -> (forall p, In p (l1 ++ l2) -> ~ lonely cl la p) -> (forall p, In p (m1 ++ m2) -> ~ lonely cl le p) ->
  exists h ch, dual_of show near pat n cl depth rel (Some (i, (ke, Obj le))) (Some (j, (ka, Obj la))) = Dual h ch /\
    (1 # 5 < similarity cl k v k' w -> shares_row show ch (k, v) (k', w) false) /\ (similarity cl k v k' w <= 1 # 5 -> shares_row show ch (k, v) (k', w) true).
Proof. exact @renamed. Qed.
Print Assumptions C94_renamed.
Example C94_renamed_ex : exists h ch, dual_of (fun _ : Z => str "0") Z.eqb (fun _ _ _ => false) 2 false 0 false (Some (O, ([], Obj [(str "id", Num 1%Z); (str "nmae", Null)]))) (Some (O, ([], Obj [(str "name", Null); (str "id", Num 2%Z)]))) = Dual h ch /\
  shares_row (fun _ : Z => str "0") ch (str "nmae", Null) (str "name", Null) false.
Proof.
  destruct (C94_renamed Z (fun _ : Z => str "0") Z.eqb (fun _ _ _ => false) 2 false 0 false O [] [(str "id", Num 1%Z)] (str "nmae") Null [] O [] [] (str "name") Null [(str "id", Num 2%Z)]) as (h & ch & E & R & _).
  - repeat constructor.
  - repeat constructor.
  - cbn. lia.
  - cbn. lia.
  - repeat constructor; vm_compute; intuition discriminate.
  - repeat constructor; vm_compute; intuition discriminate.
  - vm_compute. intuition discriminate.
  - vm_compute. intuition discriminate.
  - intros p [<-|[]]. vm_compute. tauto.
  - intros p [<-|[]]. vm_compute. tauto.
  - exists h, ch. split; [exact E|]. apply R. vm_compute. reflexivity.
Qed.
(** the keys of both sides and whether unrelated, row by row *)
Definition table (d : dual) : list (bytes * bytes * bool) :=
  match d with Stuck => [] | Dual _ ch => map (fun c => match c with Stuck => ([], [], false) | Dual h _ => (e_key h, a_key h, apart h) end) ch end.
Definition table_of (le la : list (bytes * value Z)) : list (bytes * bytes * bool) :=
  table (dual_of (fun _ => str "0") Z.eqb (fun _ _ _ => false) 9 false 0 false (Some (O, ([], Obj le))) (Some (O, ([], Obj la)))).
Example C94_rows_ex :
  table_of [(str "id", Num 1%Z); (str "nmae", Str (str "Bo")); (str "z", Null)] [(str "name", Str (str "Bo")); (str "quxx", Num 2%Z); (str "id", Num 1%Z)] =
  [(str """id""", str """id""", false); (str """nmae""", str """name""", false); (str """z""", str """quxx""", true)].
Proof. vm_compute. reflexivity. Qed.

(** Numbers are not told apart by the search: of two members, the one with the same number is left although it is there. *)
Theorem C94_numbers_refuted : exists le la : list (bytes * value Z), le = [(str "x", Num 1%Z)] /\ la = [(str "p", Num 2%Z); (str "q", Num 1%Z)] /\
  table_of le la = [(str """x""", str """p""", false); ([], str """q""", true)].
Proof. eexists _, _. split; [reflexivity|]. split; [reflexivity|]. vm_compute. reflexivity. Qed.
Print Assumptions C94_numbers_refuted.
(** The members are served in their order: one may take the partner of another that is much more like it. *)
Theorem C94_greedy_refuted : exists le la : list (bytes * value Z), le = [(str "abc", Null); (str "xyz", Null)] /\ la = [(str "xyzz", Null)] /\
  likeness false (str "abc", Null) (str "xyzz", @Null Z) < likeness false (str "xyz", Null) (str "xyzz", @Null Z) /\
  table_of le la = [(str """abc""", str """xyzz""", false); (str """xyz""", [], true)].
Proof. eexists _, _. split; [reflexivity|]. split; [reflexivity|]. split; vm_compute; reflexivity. Qed.
Print Assumptions C94_greedy_refuted.
(** The likeness is not within 1, and not symmetric. *)
Theorem C94_range_refuted : exists e a : value Z, e = Arr [Null; Null; Null] /\ a = Arr [Null; Null] /\
  1 < similarity false [] e [] e /\ ~ similarity false [] e [] a == similarity false [] a [] e.
Proof. eexists _, _. split; [reflexivity|]. split; [reflexivity|]. split; [vm_compute; reflexivity|]. vm_compute. discriminate. Qed.
Print Assumptions C94_range_refuted.
