(** The pairing of a JSON diff loses and repeats nothing. *)
From Coq Require Import List NArith ZArith Bool Arith Lia Sorting.Permutation Sorting.Sorted.
From Verif Require Import Base FilterModel StrModel LineModel JsonModel JsonSpec JsonProofs3 PrintModel PrintSpec PrintProofs.
Import ListNotations.
Local Open Scope N_scope.

(** ** sorting *)
Section Sort.
Variable X : Type.
Variable ix : X -> option nat.
Definition ordered (x y : X) : Prop := later (ix x) (ix y) = false.
Lemma later_trans a b c : later a b = false -> later b c = false -> later a c = false.
Proof.
  destruct a as [a|], b as [b|], c as [c|]; cbn [later]; try reflexivity; try discriminate. rewrite !Nat.ltb_ge. lia.
Qed.
Lemma later_asym a b : later a b = true -> later b a = false.
Proof. destruct a as [a|], b as [b|]; cbn [later]; try reflexivity; try discriminate. rewrite Nat.ltb_ge, Nat.ltb_lt. lia. Qed.
Lemma insert_perm p l : Permutation (p :: l) (insert_by ix p l).
Proof.
  induction l as [|q l IH]; [reflexivity|]. cbn [insert_by]. destruct (later (ix q) (ix p)); [reflexivity|]. rewrite perm_swap. constructor. exact IH.
Qed.
Lemma insert_ordered p l : StronglySorted ordered l -> StronglySorted ordered (insert_by ix p l).
Proof.
  induction 1 as [|q l SS IH F]; [repeat constructor|]. cbn [insert_by]. destruct (later (ix q) (ix p)) eqn:L.
  - constructor; [constructor; auto|]. constructor; [apply later_asym; exact L|]. eapply Forall_impl; [|exact F]. intros z Hz. eapply later_trans; [apply later_asym; exact L|exact Hz].
  - constructor; [exact IH|]. eapply Permutation_Forall; [apply insert_perm|]. constructor; auto.
Qed.
Lemma sort_spec l : Permutation l (sort_by ix l) /\ StronglySorted ordered (sort_by ix l).
Proof.
  unfold sort_by. assert (H : forall s, StronglySorted ordered s -> Permutation (l ++ s) (fold_left (fun s p => insert_by ix p s) l s) /\ StronglySorted ordered (fold_left (fun s p => insert_by ix p s) l s)).
  { induction l as [|p l IH]; intros s SS; [split; [reflexivity|exact SS]|]. cbn [fold_left app]. destruct (IH (insert_by ix p s) (insert_ordered p s SS)) as [P O]. split; [|exact O].
    rewrite <- P. rewrite <- insert_perm. apply Permutation_middle. }
  specialize (H [] (SSorted_nil _)). rewrite app_nil_r in H. exact H.
Qed.
End Sort.
Lemma sort_map {X Y} (ix : X -> option nat) (iy : Y -> option nat) (f : X -> Y) l : (forall x, In x l -> iy (f x) = ix x) -> sort_by iy (map f l) = map f (sort_by ix l).
Proof.
  unfold sort_by. intro H. assert (G : forall s, (forall x, In x s -> iy (f x) = ix x) -> fold_left (fun s p => insert_by iy p s) (map f l) (map f s) = map f (fold_left (fun s p => insert_by ix p s) l s)).
  { induction l as [|p l IH]; intros s Hs; [reflexivity|]. cbn [map fold_left].
    assert (E : insert_by iy (f p) (map f s) = map f (insert_by ix p s)).
    { clear IH. assert (Hp := H p (or_introl eq_refl)). induction s as [|q s IHs]; [reflexivity|]. cbn [map insert_by]. rewrite Hp, (Hs q (or_introl eq_refl)). destruct (later (ix q) (ix p)); [reflexivity|].
      cbn [map]. f_equal. apply IHs. intros x I. apply Hs. right; exact I. }
    rewrite E. apply IH; [intros x I; apply H; right; exact I|]. intros x I. apply (Permutation_in _ (Permutation_sym (insert_perm _ ix p s))) in I. destruct I as [<-|I]; [apply H; left; reflexivity|apply Hs; exact I]. }
  apply (G []). intros x [].
Qed.
Lemma sorted_unique {V} (l1 l2 : list (nat * V)) : StronglySorted (fun x y => fst x < fst y)%nat l1 -> StronglySorted (fun x y => fst x <= fst y)%nat l2 -> Permutation l1 l2 -> l1 = l2.
Proof.
  intro S1. revert l2. induction S1 as [|x l1 S1 IH F1]; intros l2 S2 P.
  - apply Permutation_nil in P. congruence.
  - destruct l2 as [|y l2]; [apply Permutation_sym, Permutation_nil in P; discriminate|].
    assert (E : y = x).
    { assert (Iy : In y (x :: l1)) by (eapply Permutation_in; [apply Permutation_sym; exact P|left; reflexivity]). destruct Iy as [Iy|Iy]; [congruence|].
      assert (Hy := proj1 (Forall_forall _ _) F1 y Iy). cbn in Hy.
      assert (Ix : In x (y :: l2)) by (eapply Permutation_in; [exact P|left; reflexivity]). destruct Ix as [Ix|Ix]; [congruence|].
      inversion S2 as [|y' l' S2' F2]. subst. assert (Hx := proj1 (Forall_forall _ _) F2 x Ix). cbn in Hx. lia. }
    subst y. f_equal. apply IH; [inversion S2; assumption|]. eapply Permutation_cons_inv; exact P.
Qed.

(** ** passes *)
Section Pairs.
Variable num : Type.
Notation node := (nat * (bytes * value num))%type.
Notation find_t := (node -> list node -> option (node * list node)).
Definition takes (find : find_t) : Prop := forall e al a al', find e al = Some (a, al') -> Permutation al (a :: al').
Lemma take_perm f al a al' : take num f al = Some (a, al') -> Permutation al (a :: al') /\ f a = true.
Proof.
  revert a al'. induction al as [|x al IH]; intros a al' E; [discriminate|]. cbn [take] in E. destruct (f x) eqn:Fx; [injection E as <- <-; auto|].
  destruct (take num f al) as [(y, r)|]; [|discriminate]. injection E as <- <-. destruct (IH y r eq_refl) as [P Fy]. split; [|exact Fy]. rewrite P. apply perm_swap.
Qed.
Lemma take_none f al : take num f al = None -> forall x, In x al -> f x = false.
Proof.
  induction al as [|y al IH]; intros E x I; [contradiction|]. cbn [take] in E. destruct (f y) eqn:Fy; [discriminate|]. destruct (take num f al) as [(z, r)|]; [discriminate|].
  destruct I as [<-|I]; [exact Fy|apply IH; auto].
Qed.
Lemma take_at_perm i al a al' : take_at num i al = Some (a, al') -> Permutation al (a :: al').
Proof.
  revert i a al'. induction al as [|x al IH]; intros i a al' E; [destruct i; discriminate|]. destruct i as [|i]; cbn [take_at] in E; [injection E as <- <-; reflexivity|].
  destruct (take_at num i al) as [(y, r)|] eqn:T; [|discriminate]. injection E as <- <-. rewrite (IH _ _ _ T). apply perm_swap.
Qed.
Lemma by_key_takes cl : takes (by_key num cl).
Proof.
  intros e al a al'. unfold by_key. destruct (take num _ al) as [(x, r)|] eqn:T; [intro E; injection E as <- <-; apply take_perm in T; tauto|].
  destruct cl; [|discriminate]. intro E. apply take_perm in E. tauto.
Qed.
Lemma by_search_takes score gt floor sim cl : takes (by_search num score gt floor sim cl).
Proof. intros e al a al'. unfold by_search. destruct (best _ _ _ _ _ _ _ _ _ _); [|discriminate]. apply take_at_perm. Qed.
Lemma pass_perm find : takes find -> forall es al ps es' al', pass num find es al = (ps, es', al') -> Permutation es (map fst ps ++ es') /\ Permutation al (map snd ps ++ al').
Proof.
  intro T. induction es as [|e es IH]; intros al ps es' al' E; [injection E as <- <- <-; split; reflexivity|]. cbn [pass] in E. destruct (find e al) as [(a, al1)|] eqn:Fd.
  - destruct (pass num find es al1) as [[ps1 es1] al2] eqn:P. injection E as <- <- <-. destruct (IH _ _ _ _ P) as [P1 P2]. cbn [map app fst snd]. split; [constructor; exact P1|]. rewrite (T _ _ _ _ Fd). constructor. exact P2.
  - destruct (pass num find es al) as [[ps1 es1] al1] eqn:P. injection E as <- <- <-. destruct (IH _ _ _ _ P) as [P1 P2]. split; [|exact P2]. rewrite P1. apply Permutation_middle.
Qed.
Definition lefts {R} (P : list (option node * option node * R)) : list node := concat (map (fun p => match fst (fst p) with Some e => [e] | None => [] end) P).
Definition rights {R} (P : list (option node * option node * R)) : list node := concat (map (fun p => match snd (fst p) with Some a => [a] | None => [] end) P).
Lemma zip_nil_r es : zip num es [] = map (fun e => (Some e, None)) es.
Proof. induction es as [|e es IH]; [reflexivity|]. cbn [zip map]. rewrite IH. reflexivity. Qed.
Lemma zip_nil_l al : zip num [] al = map (fun a => (None, Some a)) al.
Proof. destruct al as [|a al]; [reflexivity|]. cbn [zip map]. f_equal. Qed.
Lemma zip_sides {R} (r : R) es al : lefts (map (fun p => (p, r)) (zip num es al)) = es /\ rights (map (fun p => (p, r)) (zip num es al)) = al.
Proof.
  revert al. induction es as [|e es IH]; intro al.
  - rewrite zip_nil_l. split; induction al as [|a al IHa]; try reflexivity; unfold lefts, rights in *; cbn [map concat fst snd app]; congruence.
  - destruct al as [|a al].
    + rewrite zip_nil_r. split; [|]; cbn [map]; unfold lefts, rights; cbn [map concat fst snd app]; clear IH; [f_equal|]; induction es as [|e2 es IHe]; try reflexivity; cbn [map concat fst snd app]; congruence.
    + cbn [zip map]. destruct (IH al) as [I1 I2]. unfold lefts, rights in *. cbn [map concat fst snd app]. rewrite I1, I2. auto.
Qed.
Lemma zip_some es al p : In p (zip num es al) -> fst p <> None \/ snd p <> None.
Proof.
  revert al. induction es as [|e es IH]; intros al I.
  - rewrite zip_nil_l in I. apply in_map_iff in I. destruct I as (a & <- & _). right; discriminate.
  - destruct al as [|a al]; [rewrite zip_nil_r in I; apply in_map_iff in I; destruct I as (a & <- & _); left; discriminate|].
    cbn [zip] in I. destruct I as [<-|I]; [left; discriminate|apply (IH al I)].
Qed.
Lemma plan_perm score gt floor sim cl both es al :
  let P := object_plan num score gt floor sim cl both es al in
  Permutation es (lefts P) /\ Permutation al (rights P) /\ Forall (fun p => fst (fst p) <> None \/ snd (fst p) <> None) P.
Proof.
  cbn zeta. unfold object_plan.
  destruct (if both then pass num (by_key num cl) es al else ([], es, al)) as [[p1 es1] al1] eqn:P1.
  destruct (if both then pass num (by_search num score gt floor sim cl) es1 al1 else ([], es1, al1)) as [[p2 es2] al2] eqn:P2.
  assert (H1 : Permutation es (map fst p1 ++ es1) /\ Permutation al (map snd p1 ++ al1)) by (destruct both; [eapply pass_perm; [apply by_key_takes|exact P1]|injection P1 as <- <- <-; split; reflexivity]).
  assert (H2 : Permutation es1 (map fst p2 ++ es2) /\ Permutation al1 (map snd p2 ++ al2)) by (destruct both; [eapply pass_perm; [apply by_search_takes|exact P2]|injection P2 as <- <- <-; split; reflexivity]).
  destruct H1 as [A1 B1], H2 as [A2 B2]. destruct (zip_sides true es2 al2) as [Z1 Z2].
  assert (L : forall ps : list (node * node), lefts (map (fun p => (Some (fst p), Some (snd p), false)) ps) = map fst ps /\ rights (map (fun p => (Some (fst p), Some (snd p), false)) ps) = map snd ps).
  { induction ps as [|p ps [I1 I2]]; [split; reflexivity|]. unfold lefts, rights in *. cbn [map concat fst snd app]. rewrite I1, I2. auto. }
  assert (LA : forall X Y : list (option node * option node * bool), lefts (X ++ Y) = lefts X ++ lefts Y /\ rights (X ++ Y) = rights X ++ rights Y) by (intros; unfold lefts, rights; rewrite !map_app, !concat_app; auto).
  destruct (LA (map (fun p => (Some (fst p), Some (snd p), false)) (p1 ++ p2)) (map (fun p => (p, true)) (zip num es2 al2))) as [-> ->].
  destruct (L (p1 ++ p2)) as [-> ->]. rewrite Z1, Z2, !map_app, <- !app_assoc. rewrite A1, A2, B1, B2. split; [reflexivity|]. split; [reflexivity|].
  apply Forall_forall. intros x I. rewrite !in_app_iff, !in_map_iff in I. destruct I as [(p & <- & _)|[(p & <- & _)|(p & <- & I)]]; [left; discriminate|left; discriminate|]. apply (zip_some _ _ _ I).
Qed.
Definition pidx {R} (p : option node * option node * R) : option nat := option_map fst (fst (fst p)).
Lemma lefts_sorted {R} (P : list (option node * option node * R)) : StronglySorted (ordered _ pidx) P -> StronglySorted (fun x y => fst x <= fst y)%nat (lefts P).
Proof.
  induction 1 as [|p P SS IH F]; [constructor|]. unfold lefts in *. cbn [map concat]. destruct (fst (fst p)) as [e|] eqn:Ep; [|exact IH]. cbn [app]. constructor; [exact IH|].
  apply Forall_forall. intros x I. apply in_concat in I. destruct I as (l & Il & Ix). apply in_map_iff in Il. destruct Il as (q & <- & Iq). destruct (fst (fst q)) as [y|] eqn:Eq; [|contradiction].
  destruct Ix as [<-|[]]. assert (O := proj1 (Forall_forall _ _) F q Iq). cbn in O. unfold ordered, pidx in O. rewrite Ep, Eq in O. cbn in O. apply Nat.ltb_ge in O. exact O.
Qed.
Lemma lefts_perm {R} (P Q : list (option node * option node * R)) : Permutation P Q -> Permutation (lefts P) (lefts Q) /\ Permutation (rights P) (rights Q).
Proof.
  unfold lefts, rights. induction 1 as [|x P Q PQ [I1 I2]|x y P|P Q R' PQ [I1 I2] QR [J1 J2]]; cbn [map concat].
  - split; reflexivity.
  - split; apply Permutation_app_head; assumption.
  - split; rewrite !app_assoc; apply Permutation_app_tail; apply Permutation_app_comm.
  - split; etransitivity; eassumption.
Qed.
Lemma nodes_sorted (v : value num) : StronglySorted (fun x y => fst x < fst y)%nat (nodes v).
Proof.
  unfold nodes. generalize (children v). intro l. generalize O. induction l as [|x l IH]; intro n; [constructor|]. cbn [length seq combine]. constructor; [apply IH|].
  apply Forall_forall. intros (i, y) I. apply in_combine_l in I. apply in_seq in I. cbn [fst]. lia.
Qed.
Lemma nodes_children (v : value num) : map snd (nodes v) = children v.
Proof.
  unfold nodes. generalize (children v). intro l. generalize O. induction l as [|x l IH]; intro n; [reflexivity|]. cbn [length seq combine map snd]. rewrite IH. reflexivity.
Qed.
Lemma sorted_lefts {R} (P : list (option node * option node * R)) v : Permutation (nodes v) (lefts P) -> lefts (sort_by pidx P) = nodes v.
Proof.
  intro H. destruct (sort_spec _ pidx P) as [PP SS]. symmetry. apply sorted_unique; [apply nodes_sorted|apply lefts_sorted; exact SS|].
  rewrite H. apply lefts_perm. exact PP.
Qed.
(** heights *)
Lemma height_child (v : value num) n : In n (nodes v) -> (height (snd (snd n)) < height v)%nat.
Proof.
  intro I. apply (in_map snd) in I. rewrite nodes_children in I. destruct v as [| |b|x|s|s|l|l]; cbn [children] in I; try contradiction; cbn [height].
  - apply in_map_iff in I. destruct I as (x & E & I). rewrite <- E. cbn [snd]. apply (in_map height) in I. assert (M := proj1 (list_max_le (map height l) (list_max (map height l))) (le_n _)). rewrite Forall_forall in M. specialize (M _ I). lia.
  - apply (in_map (fun p => height (snd p))) in I. assert (M := proj1 (list_max_le (map (fun p => height (snd p)) l) (list_max (map (fun p => height (snd p)) l))) (le_n _)). rewrite Forall_forall in M. specialize (M _ I). cbn in M. lia.
Qed.
Lemma height_pos (v : value num) : (1 <= height v)%nat.
Proof. destruct v; cbn [height]; lia. Qed.
Lemma whole_child (v : value num) n : whole v -> In n (nodes v) -> whole (snd (snd n)).
Proof.
  intros W I. apply (in_map snd) in I. rewrite nodes_children in I. destruct W as [| | | | |l F|l F]; cbn [children] in I; try contradiction.
  - apply in_map_iff in I. destruct I as (x & E & I). rewrite <- E. cbn [snd]. exact (proj1 (Forall_forall _ _) F x I).
  - exact (proj1 (Forall_forall _ _) F (snd n) I).
Qed.
Lemma whole_kind (v : value num) : whole v -> kind_of v <> KAbsent.
Proof. intros []; discriminate. Qed.
End Pairs.

(** ** marks *)
Lemma mark_e es az d : e_present (mark es az d) = e_present d.
Proof. destruct d; reflexivity. Qed.
Lemma mark_a es az d : a_present (mark es az d) = a_present d.
Proof. destruct d; reflexivity. Qed.
Definition e_flag (d : dual) : bool := match d with Stuck => true | Dual h _ => e_last h end.
Definition a_flag (d : dual) : bool := match d with Stuck => true | Dual h _ => a_last h end.
Fixpoint flags (l : list dual) : Prop :=
  match l with
  | [] => True
  | d :: r => (e_present d = true -> e_flag d = negb (existsb e_present r)) /\ (a_present d = true -> a_flag d = negb (existsb a_present r)) /\ flags r
  end.
Definition marked_list (l : list dual) : list dual := fst (fst (mark_last l)).
Lemma mark_last_cons d l : mark_last (d :: l) = let '(r, es, az) := mark_last l in (mark es az d :: r, es || e_present d, az || a_present d).
Proof. reflexivity. Qed.
Lemma mark_last_spec l : exists r es az, mark_last l = (r, es, az) /\ es = existsb e_present l /\ az = existsb a_present l /\ existsb e_present r = es /\ existsb a_present r = az /\ flags r /\
  Forall2 (fun d d' => exists b c, d' = mark b c d) l r.
Proof.
  induction l as [|d l (r & es & az & E & E1 & E2 & E3 & E4 & F & F2)]; [exists [], false, false; cbn; auto 10|].
  rewrite mark_last_cons, E. exists (mark es az d :: r), (es || e_present d), (az || a_present d). split; [reflexivity|]. cbn [existsb]. rewrite mark_e, mark_a.
  split; [rewrite E1; apply orb_comm|]. split; [rewrite E2; apply orb_comm|]. split; [rewrite E3; apply orb_comm|]. split; [rewrite E4; apply orb_comm|]. split.
  - cbn [flags]. rewrite mark_e, mark_a, E3, E4. split; [|split; [|exact F]]; intro H; (destruct d as [|h ch]; [discriminate|]); cbn [mark e_flag a_flag e_last a_last]; rewrite H; reflexivity.
  - constructor; [eauto|exact F2].
Qed.
Section Build.
Variable num : Type.
Variable show : num -> bytes.
Variable near : num -> num -> bool.
Variable pat : bool -> bytes -> bytes -> bool.
Variable score : Type.
Variable gt : score -> score -> bool.
Variable floor : score.
Variable sim : bool -> (nat * (bytes * value num)) -> (nat * (bytes * value num)) -> score.
Notation node := (nat * (bytes * value num))%type.
Notation mk := (mk_dual num show near pat score gt floor sim).

Lemma left_mark b c d k v : left_of show d k v -> left_of show (mark b c d) k v.
Proof. intros [h ch k' v' H1 H2 H3 H4]. constructor; assumption. Qed.
Lemma right_mark b c d k v : right_of show d k v -> right_of show (mark b c d) k v.
Proof. intros [h ch k' v' l H1 H2 H3 H4 H5 H6]. econstructor; eassumption. Qed.
Lemma marks_left l r : Forall2 (fun d d' => exists b c, d' = mark b c d) l r -> forall kvs,
  Forall2 (fun d kv => left_of show d (fst kv) (snd kv)) (filter e_present l) kvs -> Forall2 (fun d kv => left_of show d (fst kv) (snd kv)) (filter e_present r) kvs.
Proof.
  induction 1 as [|d d' l r (b & c & ->) F IH]; intros kvs H; [exact H|]. cbn [filter] in *. rewrite mark_e. destruct (e_present d); [|auto]. inversion H as [|? kv ? kvs' H1 H2]. subst. constructor; [apply left_mark; exact H1|auto].
Qed.
Lemma marks_right l r : Forall2 (fun d d' => exists b c, d' = mark b c d) l r -> forall kvs,
  Forall2 (fun d kv => right_of show d (fst kv) (snd kv)) (filter a_present l) kvs -> Forall2 (fun d kv => right_of show d (fst kv) (snd kv)) (filter a_present r) kvs.
Proof.
  induction 1 as [|d d' l r (b & c & ->) F IH]; intros kvs H; [exact H|]. cbn [filter] in *. rewrite mark_a. destruct (a_present d); [|auto]. inversion H as [|? kv ? kvs' H1 H2]. subst. constructor; [apply right_mark; exact H1|auto].
Qed.
(** flags right, nothing under an absent side *)
Inductive consistent : dual -> Prop :=
| Cons h ch : flags ch -> Forall consistent ch -> (e_type h = KAbsent -> filter e_present ch = []) -> (a_type h = KAbsent -> filter a_present ch = []) -> consistent (Dual h ch).
Lemma consistent_mark b c d : consistent d -> consistent (mark b c d).
Proof. intros [h ch H1 H2 H3 H4]. constructor; assumption. Qed.
Definition left_ok (d : dual) (e : option node) : Prop := match e with Some n => left_of show d (fst (snd n)) (snd (snd n)) /\ e_present d = true | None => e_present d = false end.
Definition right_ok (d : dual) (a : option node) : Prop := match a with Some n => right_of show d (fst (snd n)) (snd (snd n)) /\ a_present d = true | None => a_present d = false end.
Definition fits (f : nat) (n : option node) : Prop := match n with Some x => whole (snd (snd x)) /\ (height (snd (snd x)) <= f)%nat | None => True end.
Lemma kids_left (P : list (option node * option node * bool)) b : Forall (fun p => left_ok (b p) (fst (fst p))) P ->
  Forall2 (fun d kv => left_of show d (fst kv) (snd kv)) (filter e_present (map b P)) (map snd (lefts num P)).
Proof.
  induction 1 as [|p P H F IH]; [constructor|]. unfold lefts in *. cbn [map concat filter]. unfold left_ok in H. destruct (fst (fst p)) as [e|].
  - destruct H as [H1 ->]. cbn [app map]. constructor; assumption.
  - rewrite H. exact IH.
Qed.
Lemma kids_right (P : list (option node * option node * bool)) b : Forall (fun p => right_ok (b p) (snd (fst p))) P ->
  Forall2 (fun d kv => right_of show d (fst kv) (snd kv)) (filter a_present (map b P)) (map snd (rights num P)).
Proof.
  induction 1 as [|p P H F IH]; [constructor|]. unfold rights in *. cbn [map concat filter]. unfold right_ok in H. destruct (snd (fst p)) as [e|].
  - destruct H as [H1 ->]. cbn [app map]. constructor; assumption.
  - rewrite H. exact IH.
Qed.
Lemma in_lefts {R} (P : list (option node * option node * R)) p e : In p P -> fst (fst p) = Some e -> In e (lefts num P).
Proof. intros I E. unfold lefts. apply in_concat. eexists. split; [apply in_map_iff; exists p; split; [reflexivity|exact I]|]. cbn beta. rewrite E. left; reflexivity. Qed.
Lemma in_rights {R} (P : list (option node * option node * R)) p e : In p P -> snd (fst p) = Some e -> In e (rights num P).
Proof. intros I E. unfold rights. apply in_concat. eexists. split; [apply in_map_iff; exists p; split; [reflexivity|exact I]|]. cbn beta. rewrite E. left; reflexivity. Qed.
Lemma onodes_fits f n x : fits (S f) n -> In x (onodes num n) -> fits f (Some x).
Proof.
  destruct n as [n|]; [|contradiction]. intros [W H] I. cbn [onodes] in I. split; [eapply whole_child; eassumption|]. apply height_child in I. lia.
Qed.
(** what the children are made of *)
Lemma kids_plan f cl depth e a : fits (S f) e -> fits (S f) a ->
  exists P : list (option node * option node * bool), (match okind num e, okind num a with
     | KObj, _ | _, KObj => sort_by dual_index (map (fun p => mk f cl (S depth) (snd p) (fst (fst p)) (snd (fst p))) (object_plan num score gt floor sim cl (match e, a with Some _, Some _ => true | _, _ => false end) (onodes num e) (onodes num a)))
     | KArr, _ | _, KArr => map (fun p => mk f cl (S depth) (snd p) (fst (fst p)) (snd (fst p))) (map (fun p => (p, false)) (zip num (onodes num e) (onodes num a)))
     | _, _ => [] end) = map (fun p => mk f cl (S depth) (snd p) (fst (fst p)) (snd (fst p))) P /\
    lefts num P = onodes num e /\ Permutation (onodes num a) (rights num P) /\ (okind num a <> KObj -> okind num e <> KObj -> rights num P = onodes num a) /\
    Forall (fun p => fst (fst p) <> None \/ snd (fst p) <> None) P /\
    (okind num e = KObj \/ okind num a = KObj -> forall p, In p (object_plan num score gt floor sim cl (match e, a with Some _, Some _ => true | _, _ => false end) (onodes num e) (onodes num a)) -> In p P).
Proof.
  intros Fe Fa. set (bld := fun p : option node * option node * bool => mk f cl (S depth) (snd p) (fst (fst p)) (snd (fst p))).
  destruct (plan_perm num score gt floor sim cl (match e, a with Some _, Some _ => true | _, _ => false end) (onodes num e) (onodes num a)) as (PE & PA & NN).
  set (Q := object_plan num score gt floor sim cl _ _ _) in *.
  destruct (zip_sides num false (onodes num e) (onodes num a)) as [Z1 Z2].
  assert (ZN : Forall (fun p : option node * option node * bool => fst (fst p) <> None \/ snd (fst p) <> None) (map (fun p => (p, false)) (zip num (onodes num e) (onodes num a)))).
  { apply Forall_forall. intros x I. apply in_map_iff in I. destruct I as (p & <- & I). apply (zip_some _ _ _ _ I). }
  assert (OBJ : exists P, sort_by dual_index (map bld Q) = map bld P /\ lefts num P = onodes num e /\ Permutation (onodes num a) (rights num P) /\ Forall (fun p => fst (fst p) <> None \/ snd (fst p) <> None) P /\ (forall p, In p Q -> In p P)).
  { exists (sort_by (pidx num) Q). destruct (sort_spec _ (pidx num) Q) as [PP _]. repeat split.
    - apply sort_map. intros p I. destruct (proj1 (Forall_forall _ _) NN p I) as [NE|NA].
      + destruct (fst (fst p)) as [x|] eqn:Ex; [|congruence].
        assert (Fx : fits f (Some x)) by (eapply onodes_fits; [exact Fe|]; eapply Permutation_in; [apply Permutation_sym; exact PE|]; eapply in_lefts; eassumption).
        destruct f as [|f']; [destruct Fx as [_ Fx]; pose proof (height_pos num (snd (snd x))); lia|]. unfold bld, pidx. rewrite Ex. reflexivity.
      + destruct (snd (fst p)) as [x|] eqn:Ex; [|congruence].
        assert (Fx : fits f (Some x)) by (eapply onodes_fits; [exact Fa|]; eapply Permutation_in; [apply Permutation_sym; exact PA|]; eapply in_rights; eassumption).
        destruct f as [|f']; [destruct Fx as [_ Fx]; pose proof (height_pos num (snd (snd x))); lia|]. unfold bld, pidx. reflexivity.
    - destruct e as [e|]; cbn [onodes] in *; [apply sorted_lefts; exact PE|]. apply Permutation_nil in PE. destruct (lefts_perm num _ _ PP) as [LP _]. rewrite PE in LP. apply Permutation_nil in LP. exact LP.
    - rewrite PA. apply (lefts_perm num _ _ PP).
    - eapply Permutation_Forall; [exact PP|exact NN].
    - intros p I. eapply Permutation_in; [exact PP|exact I]. }
  destruct OBJ as (P & E1 & E2 & E3 & E4 & E5).
  assert (ARR : exists P0 : list (option node * option node * bool), map bld (map (fun p => (p, false)) (zip num (onodes num e) (onodes num a))) = map bld P0 /\ lefts num P0 = onodes num e /\ Permutation (onodes num a) (rights num P0) /\ (okind num a <> KObj -> okind num e <> KObj -> rights num P0 = onodes num a) /\
    Forall (fun p => fst (fst p) <> None \/ snd (fst p) <> None) P0).
  { exists (map (fun p => (p, false)) (zip num (onodes num e) (onodes num a))). repeat split; auto. rewrite Z2. reflexivity. }
  destruct ARR as (P0 & A1 & A2 & A3 & A4 & A5).
  assert (NON : okind num e <> KObj -> okind num e <> KArr -> onodes num e = []).
  { intros N1 N2. destruct e as [(i, (k, v))|]; [|reflexivity]. destruct v; try reflexivity; cbn in N1, N2; congruence. }
  assert (NONA : okind num a <> KObj -> okind num a <> KArr -> onodes num a = []).
  { intros N1 N2. destruct a as [(i, (k, v))|]; [|reflexivity]. destruct v; try reflexivity; cbn in N1, N2; congruence. }
  destruct (okind num e) eqn:Ke, (okind num a) eqn:Ka;
    first [ exists P; split; [exact E1|]; split; [exact E2|]; split; [exact E3|]; split; [congruence|]; split; [exact E4|]; intros _; exact E5
          | exists P0; split; [exact A1|]; split; [exact A2|]; split; [exact A3|]; split; [intros; apply A4; congruence|]; split; [exact A5|]; intros [?|?]; discriminate
          | exists []; rewrite NON by discriminate; rewrite NONA by discriminate; repeat split; auto; intros [?|?]; discriminate ].
Qed.
Lemma mk_spec f : forall cl depth rel e a, fits f e -> fits f a -> (0 < f)%nat -> left_ok (mk f cl depth rel e a) e /\ right_ok (mk f cl depth rel e a) a /\ consistent (mk f cl depth rel e a).
Proof.
  induction f as [|f IH]; intros cl depth rel e a Fe Fa L; [lia|].
  destruct (kids_plan f cl depth e a Fe Fa) as (P & E1 & E2 & E3 & E4 & E5 & _). cbn [mk_dual]. cbn zeta in *. rewrite E1.
  assert (ALL : Forall (fun p => left_ok (mk f cl (S depth) (snd p) (fst (fst p)) (snd (fst p))) (fst (fst p)) /\ right_ok (mk f cl (S depth) (snd p) (fst (fst p)) (snd (fst p))) (snd (fst p)) /\ consistent (mk f cl (S depth) (snd p) (fst (fst p)) (snd (fst p)))) P).
  { apply Forall_forall. intros p I.
    assert (G1 : fits f (fst (fst p))).
    { destruct (fst (fst p)) as [x|] eqn:Ex; [|exact Logic.I]. eapply onodes_fits; [exact Fe|]. rewrite <- E2. eapply in_lefts; eassumption. }
    assert (G2 : fits f (snd (fst p))).
    { destruct (snd (fst p)) as [x|] eqn:Ex; [|exact Logic.I]. eapply onodes_fits; [exact Fa|]. eapply Permutation_in; [apply Permutation_sym; exact E3|]. eapply in_rights; eassumption. }
    apply IH; auto. destruct (proj1 (Forall_forall _ _) E5 p I) as [NE|NA].
    - destruct (fst (fst p)) as [x|]; [|congruence]. destruct G1 as [_ G1]. pose proof (height_pos num (snd (snd x))). lia.
    - destruct (snd (fst p)) as [x|]; [|congruence]. destruct G2 as [_ G2]. pose proof (height_pos num (snd (snd x))). lia. }
  set (ch0 := map (fun p => mk f cl (S depth) (snd p) (fst (fst p)) (snd (fst p))) P) in *.
  assert (KL : Forall2 (fun d kv => left_of show d (fst kv) (snd kv)) (filter e_present ch0) (map snd (lefts num P))).
  { apply kids_left. eapply Forall_impl; [|exact ALL]. cbn. tauto. }
  assert (KR : Forall2 (fun d kv => right_of show d (fst kv) (snd kv)) (filter a_present ch0) (map snd (rights num P))).
  { apply kids_right. eapply Forall_impl; [|exact ALL]. cbn. tauto. }
  assert (KC : Forall consistent ch0). { apply Forall_forall. intros d I. apply in_map_iff in I. destruct I as (p & <- & I). apply (proj1 (Forall_forall _ _) ALL p I). }
  destruct (mark_last_spec ch0) as (r & es & az & EM & _ & _ & _ & _ & FL & F2). rewrite EM. cbn [fst].
  apply (marks_left ch0 r F2) in KL. apply (marks_right ch0 r F2) in KR.
  assert (RC : Forall consistent r). { clear - F2 KC. induction F2 as [|d d' l r (b & c & ->) F IH2]; [constructor|]. inversion KC. subst. constructor; [apply consistent_mark; assumption|auto]. }
  split; [|split].
  - destruct e as [(ie, (ke, ve))|]; [|reflexivity]. cbn [left_ok fst snd]. split.
    + constructor; try reflexivity. rewrite E2 in KL. cbn [onodes snd] in KL. rewrite nodes_children in KL. exact KL.
    + cbn [e_present e_type okind fst snd]. destruct Fe as [W _]. cbn [snd] in W. apply whole_kind in W. destruct (kind_of ve); try reflexivity. congruence.
  - destruct a as [(ia, (ka, va))|]; [|reflexivity]. cbn [right_ok fst snd]. split.
    + eapply Right with (l := map snd (rights num P)); try reflexivity.
      * apply (Permutation_map snd) in E3. cbn [onodes snd] in E3. rewrite nodes_children in E3. exact E3.
      * cbn [e_type]. intros K NK. rewrite E4; [apply nodes_children| |exact NK]. cbn [okind snd]. congruence.
      * exact KR.
    + cbn [a_present a_type okind fst snd]. destruct Fa as [W _]. cbn [snd] in W. apply whole_kind in W. destruct (kind_of va); try reflexivity. congruence.
  - constructor; [exact FL|exact RC| |].
    + cbn [e_type]. intro K. destruct e as [(ie, (ke, ve))|]; [destruct Fe as [W _]; apply whole_kind in W; cbn in K; contradiction|]. rewrite E2 in KL. inversion KL. reflexivity.
    + cbn [a_type]. intro K. destruct a as [(ia, (ka, va))|]; [destruct Fa as [W _]; apply whole_kind in W; cbn in K; contradiction|]. cbn [onodes] in E3. apply Permutation_nil in E3. rewrite E3 in KR. inversion KR. reflexivity.
Qed.
(** members of the same key meet *)
Lemma by_key_unique cl (e a : node) al : NoDup (map (fun x : node => fold_str cl (fst (snd x))) al) -> In a al -> fold_str cl (fst (snd a)) = fold_str cl (fst (snd e)) -> exists al', by_key num cl e al = Some (a, al').
Proof.
  intros ND I K. assert (U : forall b, In b al -> fold_str cl (fst (snd b)) = fold_str cl (fst (snd e)) -> b = a).
  { intros b Ib Kb. clear - ND I Ib K Kb. induction al as [|x al IH]; [contradiction|]. cbn [map] in ND. inversion ND as [|? ? NI ND']. subst.
    assert (C : forall y, In y al -> fold_str cl (fst (snd y)) = fold_str cl (fst (snd x)) -> False) by (intros y Iy Ey; apply NI; rewrite <- Ey; apply (in_map (fun x : node => fold_str cl (fst (snd x)))); exact Iy).
    destruct I as [<-|I], Ib as [<-|Ib]; auto.
    - exfalso. apply (C b Ib). congruence.
    - exfalso. apply (C a I). congruence. }
  unfold by_key. destruct (take num (fun a0 : node => str_equals false (fst (snd a0)) (fst (snd e))) al) as [(b, r)|] eqn:T.
  - destruct (take_perm num _ _ _ _ T) as [P Fb]. apply str_equals_fold in Fb. exists r. f_equal. f_equal. apply U; [eapply Permutation_in; [apply Permutation_sym; exact P|left; reflexivity]|].
    assert (E : fst (snd b) = fst (snd e)). { unfold fold_str in Fb. cbn in Fb. rewrite !map_id in Fb. exact Fb. }
    rewrite E. reflexivity.
  - destruct cl.
    + destruct (take num (fun a0 : node => str_equals true (fst (snd a0)) (fst (snd e))) al) as [(b, r)|] eqn:T2.
      * destruct (take_perm num _ _ _ _ T2) as [P Fb]. apply str_equals_fold in Fb. exists r. f_equal. f_equal. apply U; [eapply Permutation_in; [apply Permutation_sym; exact P|left; reflexivity]|exact Fb].
      * exfalso. apply (take_none num _ _ T2) in I. apply str_equals_fold in K. congruence.
    + exfalso. apply (take_none num _ _ T) in I. apply str_equals_fold in K. congruence.
Qed.
Lemma pass_pairs cl es : forall al (e a : node), NoDup (map (fun x : node => fold_str cl (fst (snd x))) es) -> NoDup (map (fun x : node => fold_str cl (fst (snd x))) al) -> In e es -> In a al ->
  fold_str cl (fst (snd a)) = fold_str cl (fst (snd e)) -> In (e, a) (fst (fst (pass num (by_key num cl) es al))).
Proof.
  induction es as [|e0 es IH]; intros al e a NDe NDa Ie Ia K; [contradiction|]. cbn [map] in NDe. inversion NDe as [|? ? NI NDe']. subst. cbn [pass].
  destruct Ie as [<-|Ie].
  - destruct (by_key_unique cl e0 a al NDa Ia K) as (al' & ->). destruct (pass num (by_key num cl) es al') as [[ps es'] al'']. left. reflexivity.
  - assert (KE : fold_str cl (fst (snd e0)) <> fold_str cl (fst (snd e))) by (intro E; apply NI; rewrite E; apply (in_map (fun x : node => fold_str cl (fst (snd x)))); exact Ie).
    destruct (by_key num cl e0 al) as [(b, al')|] eqn:B.
    + pose proof (by_key_takes num cl _ _ _ _ B) as P.
      assert (NB : a <> b).
      { intros ->. apply KE. rewrite <- K. unfold by_key in B. destruct (take num (fun a0 : node => str_equals false (fst (snd a0)) (fst (snd e0))) al) as [(c, r)|] eqn:T.
        - injection B as -> ->. apply take_perm in T. destruct T as [_ T]. apply str_equals_fold in T. unfold fold_str in T. cbn in T. rewrite !map_id in T. rewrite T. reflexivity.
        - destruct cl; [|discriminate]. apply take_perm in B. destruct B as [_ B]. apply str_equals_fold in B. symmetry. exact B. }
      assert (Ia' : In a al') by (apply (Permutation_in _ P) in Ia; destruct Ia as [Ia|Ia]; [congruence|exact Ia]).
      assert (NDa' : NoDup (map (fun x : node => fold_str cl (fst (snd x))) al')).
      { apply (Permutation_map (fun x : node => fold_str cl (fst (snd x)))) in P. apply (Permutation_NoDup P) in NDa. inversion NDa. assumption. }
      specialize (IH al' e a NDe' NDa' Ie Ia' K). destruct (pass num (by_key num cl) es al') as [[ps es'] al'']. right. exact IH.
    + specialize (IH al e a NDe' NDa Ie Ia K). destruct (pass num (by_key num cl) es al) as [[ps es'] al']. exact IH.
Qed.
Lemma mk_pairs f cl depth rel i j ke ka le la k v k' w :
  fits (S f) (Some (i, (ke, Obj le))) -> fits (S f) (Some (j, (ka, Obj la))) ->
  NoDup (map (fun p => fold_str cl (fst p)) le) -> NoDup (map (fun p => fold_str cl (fst p)) la) -> In (k, v) le -> In (k', w) la -> fold_str cl k' = fold_str cl k ->
  exists h ch c, mk (S f) cl depth rel (Some (i, (ke, Obj le))) (Some (j, (ka, Obj la))) = Dual h ch /\ In c ch /\ left_of show c k v /\ right_of show c k' w.
Proof.
  intros Fe Fa NDe NDa Ie Ia K. destruct (kids_plan f cl depth _ _ Fe Fa) as (P & E1 & E2 & E3 & _ & E5 & E6). specialize (E6 (or_introl eq_refl)).
  change (In (k, v) (children (Obj le))) in Ie. change (In (k', w) (children (Obj la))) in Ia. rewrite <- nodes_children in Ie, Ia.
  change (NoDup (map (fun p : bytes * value num => fold_str cl (fst p)) (children (Obj le)))) in NDe. change (NoDup (map (fun p : bytes * value num => fold_str cl (fst p)) (children (Obj la)))) in NDa.
  rewrite <- nodes_children in NDe, NDa. rewrite map_map in NDe, NDa.
  apply in_map_iff in Ie. destruct Ie as (ne & Ene & Ine). apply in_map_iff in Ia. destruct Ia as (na & Ena & Ina).
  assert (IP : In (Some ne, Some na, false) P).
  { apply E6. unfold object_plan. cbn [onodes snd].
    pose proof (pass_pairs cl (nodes (Obj le)) (nodes (Obj la)) ne na NDe NDa Ine Ina) as PP. rewrite Ene, Ena in PP. specialize (PP K).
    destruct (pass num (by_key num cl) (nodes (Obj le)) (nodes (Obj la))) as [[p1 es1] al1]. cbn [fst] in PP. destruct (pass num (by_search num score gt floor sim cl) es1 al1) as [[p2 es2] al2].
    apply in_or_app. left. apply in_map_iff. exists (ne, na). split; [reflexivity|]. apply in_or_app. left. exact PP. }
  cbn [mk_dual]. cbn zeta in *. rewrite E1.
  set (ch0 := map (fun p => mk f cl (S depth) (snd p) (fst (fst p)) (snd (fst p))) P).
  destruct (mark_last_spec ch0) as (r & es & az & EM & _ & _ & _ & _ & _ & F2). rewrite EM. cbn [fst].
  assert (Ic : In (mk f cl (S depth) false (Some ne) (Some na)) ch0) by (unfold ch0; apply in_map_iff; exists (Some ne, Some na, false); auto).
  destruct (forall2_in _ _ _ F2) as [G _]. destruct (G _ Ic) as (c & Icr & (b1 & b2 & ->)).
  assert (F1 : fits f (Some ne)) by (eapply onodes_fits; [exact Fe|exact Ine]). assert (F3 : fits f (Some na)) by (eapply onodes_fits; [exact Fa|exact Ina]).
  assert (L : (0 < f)%nat) by (destruct F1 as [_ F1]; pose proof (height_pos num (snd (snd ne))); lia).
  destruct (mk_spec f cl (S depth) false (Some ne) (Some na) F1 F3 L) as ((LO & _) & (RO & _) & _). rewrite Ene in LO. rewrite Ena in RO. cbn [fst snd] in *.
  eexists _, r, _. split; [reflexivity|]. split; [exact Icr|]. split; [apply left_mark; exact LO|apply right_mark; exact RO].
Qed.
End Build.
