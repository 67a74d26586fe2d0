(** Proofs about the lookup of functions (C76): names, pointers, member functions. *)
From Coq Require Import List NArith ZArith Bool Arith Lia.
From Verif Require Import Base FilterModel MemcmpModel MemcmpSpec NmModel NmSpec.
Import ListNotations.
Local Open Scope N_scope.

Lemma parenthesis_some : forall s p, parenthesis s = Some p -> exists a r, s = a ++ 40 :: r /\ ~ In 40 a /\ length a = p.
Proof.
  induction s as [|c s IH]; intros p H; cbn in H; [discriminate|]. destruct (c =? 40) eqn:E.
  - apply N.eqb_eq in E. inversion H; subst. exists [], s. repeat split. intros [].
  - destruct (parenthesis s) as [q|]; [|discriminate]. cbn in H. inversion H; subst. destruct (IH q eq_refl) as (a & r & -> & N & L). apply N.eqb_neq in E.
    exists (c :: a), r. repeat split; [intros [I|I]; [congruence|contradiction]|cbn; congruence].
Qed.
Lemma parenthesis_app : forall a r, ~ In 40 a -> parenthesis (a ++ 40 :: r) = Some (length a).
Proof.
  induction a as [|c a IH]; intros r NI; [reflexivity|]. cbn [app parenthesis]. destruct (c =? 40) eqn:E; [apply N.eqb_eq in E; exfalso; apply NI; left; exact E|].
  rewrite IH; [reflexivity|intro I; apply NI; right; exact I].
Qed.
Lemma split_first : forall (a a' r r' : bytes), a ++ 40 :: r = a' ++ 40 :: r' -> ~ In 40 a -> ~ In 40 a' -> a = a' /\ r = r'.
Proof.
  induction a as [|c a IH]; intros [|c' a'] r r' E N N'; cbn in E; inversion E; subst.
  - auto.
  - exfalso. apply N'. left. reflexivity.
  - exfalso. apply N. left. reflexivity.
  - destruct (IH a' r r' H1) as (-> & ->); [intro I; apply N; right; exact I|intro I; apply N'; right; exact I|auto].
Qed.
Lemma firstn_skipn_before : forall (pre n r : bytes), firstn (length n) (skipn (length pre) ((pre ++ n) ++ r)) = n.
Proof. intros pre n r. rewrite <- app_assoc, skipn_app, skipn_all, Nat.sub_diag. cbn [skipn app]. rewrite firstn_app, Nat.sub_diag, firstn_all, firstn_O, app_nil_r. reflexivity. Qed.
Lemma nth_before : forall (x y : N) pre r, nth (length pre) (pre ++ x :: y :: r) 0 = x /\ nth (S (length pre)) (pre ++ x :: y :: r) 0 = y.
Proof. induction pre as [|c pre IH]; intros r; [split; reflexivity|]. cbn. apply IH. Qed.

Lemma candidate_true : forall n s, n <> [] -> called n s -> match s with 58 :: _ => False | _ => True end -> candidate n s = Some true.
Proof.
  intros n s NE (Nn & rest & H) CO. unfold candidate. destruct H as [->|(sc & Ns & ->)].
  - rewrite parenthesis_app by exact Nn. rewrite Nat.ltb_irrefl, Nat.sub_diag. cbn [skipn]. rewrite firstn_app, Nat.sub_diag, firstn_all, firstn_O, app_nil_r.
    rewrite (proj2 (bytes_eqb_eq n n) eq_refl). reflexivity.
  - destruct sc as [|c sc]; [contradiction|].
    replace ((c :: sc) ++ [58; 58] ++ n ++ 40 :: rest) with ((((c :: sc) ++ [58; 58]) ++ n) ++ 40 :: rest) by (rewrite <- !app_assoc; reflexivity).
    rewrite parenthesis_app; [|rewrite !in_app_iff; intros [[I|[I|[I|I]]]|I]; [contradiction|discriminate|discriminate|contradiction|contradiction]].
    set (pre := (c :: sc) ++ [58; 58]). replace (length (pre ++ n) <? length n)%nat with false by (symmetry; apply Nat.ltb_ge; rewrite app_length; lia).
    replace (length (pre ++ n) - length n)%nat with (length pre) by (rewrite app_length; lia). rewrite firstn_skipn_before, (proj2 (bytes_eqb_eq n n) eq_refl).
    assert (L : length pre = S (S (length (c :: sc)))) by (unfold pre; rewrite app_length; cbn; lia). rewrite L.
    unfold pre. rewrite <- !app_assoc. cbn [app]. rewrite app_comm_cons. destruct (nth_before 58 58 (c :: sc) (n ++ 40 :: rest)) as (-> & ->). reflexivity.
Qed.
Lemma candidate_false : forall n s, n <> [] -> ~ called n s -> match s with 58 :: _ => False | _ => True end -> candidate n s = Some false.
Proof.
  intros n s NE NC CO. unfold candidate. destruct (parenthesis s) as [p|] eqn:P; [|reflexivity]. destruct (parenthesis_some s p P) as (a & r & -> & NI & <-).
  destruct (length a <? length n)%nat eqn:L; [reflexivity|]. apply Nat.ltb_ge in L.
  destruct (bytes_eqb (firstn (length n) (skipn (length a - length n) (a ++ 40 :: r))) n) eqn:E; [|reflexivity]. apply bytes_eqb_eq in E.
  set (pre := firstn (length a - length n) a).
  assert (A : a = pre ++ n).
  { unfold pre. rewrite <- (firstn_skipn (length a - length n) a) at 1. f_equal. rewrite skipn_app in E. replace (length a - length n - length a)%nat with O in E by lia. cbn [skipn] in E.
    rewrite firstn_app in E. replace (length n - length (skipn (length a - length n) a))%nat with O in E by (rewrite skipn_length; lia). rewrite firstn_O, app_nil_r in E.
    rewrite firstn_all2 in E by (rewrite skipn_length; lia). exact E. }
  assert (PL : (length a - length n)%nat = length pre) by (unfold pre; rewrite firstn_length; lia). rewrite PL. clearbody pre. subst a.
  assert (Nn : ~ In 40 n) by (intro I; apply NI, in_or_app; right; exact I). assert (Np : ~ In 40 pre) by (intro I; apply NI, in_or_app; left; exact I).
  destruct (rev pre) as [|y [|x q]] eqn:R.
  - apply (f_equal (@rev N)) in R. rewrite rev_involutive in R. subst pre. exfalso. apply NC. split; [exact Nn|]. exists r. left. reflexivity.
  - apply (f_equal (@rev N)) in R. rewrite rev_involutive in R. cbn in R. subst pre. cbn [length]. cbn [app nth]. cbn in CO. destruct (y =? 58) eqn:Y; [|reflexivity].
    apply N.eqb_eq in Y. subst y. contradiction.
  - apply (f_equal (@rev N)) in R. rewrite rev_involutive in R. cbn [rev] in R. rewrite <- app_assoc in R. cbn [app] in R. subst pre. rewrite app_length. cbn [length].
    replace (length (rev q) + 2)%nat with (S (S (length (rev q)))) by lia. rewrite <- !app_assoc. cbn [app]. destruct (nth_before x y (rev q) (n ++ 40 :: r)) as (-> & ->).
    destruct (y =? 58) eqn:Y, (x =? 58) eqn:X; try reflexivity. apply N.eqb_eq in X, Y. subst x y. exfalso. apply NC. split; [exact Nn|]. exists r. right. exists (rev q).
    split; [intro I; apply Np, in_or_app; left; exact I|]. rewrite <- !app_assoc. reflexivity.
Qed.

Lemma name_shown : forall lu p, name_of lu p = shown lu p.
Proof. reflexivity. Qed.
Lemma exact_first : forall lu l n p, first_named lu n l p -> exact lu l n = Some p.
Proof.
  intros lu l n p (b & a & -> & S & F). unfold exact. induction F as [|q b Q F IH]; cbn [app find].
  - rewrite name_shown, S, (proj2 (bytes_eqb_eq n n) eq_refl). reflexivity.
  - rewrite name_shown. destruct (bytes_eqb (shown lu q) n) eqn:E; [apply bytes_eqb_eq in E; contradiction|exact IH].
Qed.
Lemma exact_none : forall lu l n, (forall q, In q l -> shown lu q <> n) -> exact lu l n = None.
Proof.
  intros lu l n H. unfold exact. induction l as [|q l IH]; [reflexivity|]. cbn. rewrite name_shown. destruct (bytes_eqb (shown lu q) n) eqn:E; [apply bytes_eqb_eq in E; exfalso; apply (H q); [left; reflexivity|exact E]|].
  apply IH. intros q' I. apply H. right. exact I.
Qed.
Lemma scoped_picks : forall lu n l ps k, n <> [] -> sound lu l -> picks (fun p => called n (shown lu p)) l ps -> scoped lu l n k = Some (firstn k ps).
Proof.
  intros lu n l ps k NE SO P. revert k. induction P as [|x l r C P IH|x l r C P IH]; intros k; [destruct k; reflexivity| |]; cbn [scoped]; rewrite name_shown; pose proof (SO x (or_introl eq_refl)) as CO; assert (SO' : sound lu l) by (intros q I; apply SO; right; exact I).
  - rewrite candidate_true by assumption. destruct k as [|k]; [rewrite (IH SO' O); reflexivity|]. rewrite (IH SO' k). reflexivity.
  - rewrite candidate_false by assumption. apply IH. exact SO'.
Qed.
Lemma by_name_exact : forall lu l n p k, n <> [] -> first_named lu n l p -> get_by_name lu l (Some n) k = Some [p].
Proof. intros lu l [|c n] p k NE F; [congruence|]. unfold get_by_name. rewrite (exact_first _ _ _ _ F). reflexivity. Qed.
Lemma by_name_scoped : forall lu l n ps k, n <> [] -> (forall q, In q l -> shown lu q <> n) -> sound lu l -> picks (fun p => called n (shown lu p)) l ps -> get_by_name lu l (Some n) k = Some (firstn k ps).
Proof. intros lu l [|c n] ps k NE X SO P; [congruence|]. unfold get_by_name. rewrite exact_none by exact X. apply scoped_picks; assumption. Qed.

Lemma w64_sub : forall a d m x, m = (a + d) mod 2 ^ 64 -> x < 2 ^ 64 -> w64 (Z.of_N ((x + d) mod 2 ^ 64) - (Z.of_N m - Z.of_N a)) = x.
Proof.
  intros a d m x -> X. unfold w64. apply N2Z.inj. rewrite Z2N.id by (apply Z.mod_pos_bound; reflexivity). rewrite !N2Z.inj_mod, !N2Z.inj_add. change (Z.of_N (2 ^ 64)) with (2 ^ 64)%Z.
  replace ((Z.of_N x + Z.of_N d) mod 2 ^ 64 - ((Z.of_N a + Z.of_N d) mod 2 ^ 64 - Z.of_N a))%Z with ((Z.of_N x + Z.of_N d) mod 2 ^ 64 + (Z.of_N a - (Z.of_N a + Z.of_N d) mod 2 ^ 64))%Z by ring.
  rewrite Zplus_mod_idemp_l. replace (Z.of_N x + Z.of_N d + (Z.of_N a - (Z.of_N a + Z.of_N d) mod 2 ^ 64))%Z with ((Z.of_N x + Z.of_N d + Z.of_N a) - (Z.of_N a + Z.of_N d) mod 2 ^ 64)%Z by ring.
  rewrite Zminus_mod_idemp_r. replace (Z.of_N x + Z.of_N d + Z.of_N a - (Z.of_N a + Z.of_N d))%Z with (Z.of_N x) by ring. apply Z.mod_small. split; [lia|]. change (2 ^ 64)%Z with (Z.of_N (2 ^ 64)). lia.
Qed.
Lemma w64_add : forall a d m x, m = (a + d) mod 2 ^ 64 -> w64 (Z.of_N x + (Z.of_N m - Z.of_N a)) = (x + d) mod 2 ^ 64.
Proof.
  intros a d m x ->. unfold w64. apply N2Z.inj. rewrite N2Z.inj_mod, N2Z.inj_add, Z2N.id by (apply Z.mod_pos_bound; reflexivity). rewrite N2Z.inj_mod, N2Z.inj_add.
  change (Z.of_N (2 ^ 64)) with (2 ^ 64)%Z. replace (Z.of_N x + ((Z.of_N a + Z.of_N d) mod 2 ^ 64 - Z.of_N a))%Z with ((Z.of_N a + Z.of_N d) mod 2 ^ 64 + (Z.of_N x - Z.of_N a))%Z by ring.
  rewrite Zplus_mod_idemp_l. f_equal. ring.
Qed.
Lemma offset_loaded : forall lu l m d, loaded lu l m d -> exists p, text_offset lu l m = Some (Z.of_N m - Z.of_N (at_ p))%Z /\ m = (at_ p + d) mod 2 ^ 64.
Proof. intros lu l m d (_ & p & F & E). exists p. split; [|exact E]. unfold text_offset. rewrite (by_name_exact lu l (str "main") p 16) by (discriminate || exact F). reflexivity. Qed.
Lemma addr_loaded : forall lu l m d a, loaded lu l m d -> addr_to_ptr lu l m a = Some ((a + d) mod 2 ^ 64).
Proof. intros lu l m d a LD. destruct (offset_loaded _ _ _ _ LD) as (p & O & E). unfold addr_to_ptr. rewrite O. cbn [option_map]. rewrite (w64_add (at_ p) d m a E). reflexivity. Qed.
Lemma ptr_loaded : forall lu l m d a, loaded lu l m d -> a < 2 ^ 64 -> ptr_to_addr lu l m ((a + d) mod 2 ^ 64) = Some a.
Proof. intros lu l m d a LD A. destruct (offset_loaded _ _ _ _ LD) as (p & O & E). unfold ptr_to_addr. rewrite O. cbn [option_map]. rewrite (w64_sub (at_ p) d m a E A). reflexivity. Qed.

Lemma exact_ok : forall lu l m d n p, loaded lu l m d -> n <> [] -> first_named lu n l p -> get lu l m (Some n) = Some (Found (place d p)).
Proof. intros lu l m d n p LD NE F. unfold get. rewrite (by_name_exact lu l n p 16 NE F), (addr_loaded lu l m d _ LD). reflexivity. Qed.
Lemma one_ok : forall lu l m d n p, loaded lu l m d -> sound lu l -> n <> [] -> (forall q, In q l -> shown lu q <> n) -> picks (fun p => called n (shown lu p)) l [p] ->
  get lu l m (Some n) = Some (Found (place d p)).
Proof. intros lu l m d n p LD SO NE X P. unfold get. rewrite (by_name_scoped lu l n [p] 16 NE X SO P). cbn [firstn]. rewrite (addr_loaded lu l m d _ LD). reflexivity. Qed.
Lemma many_ok : forall lu l m n ps, sound lu l -> n <> [] -> (forall q, In q l -> shown lu q <> n) -> picks (fun p => called n (shown lu p)) l ps -> length ps <> 1%nat ->
  get lu l m (Some n) = Some (Failed (map (shown lu) (firstn 16 ps))).
Proof.
  intros lu l m n ps SO NE X P L. unfold get. rewrite (by_name_scoped lu l n ps 16 NE X SO P). destruct ps as [|a [|b ps]]; [reflexivity|cbn in L; congruence|]. reflexivity.
Qed.
Lemma nameless_ok : forall lu l m fn, fn = None \/ fn = Some [] -> get lu l m fn = Some (Failed []).
Proof. intros lu l m fn [->| ->]; reflexivity. Qed.
Lemma all_some_map : forall {A B} (f : A -> option B) (g : A -> B) l, (forall x, f x = Some (g x)) -> all_some (map f l) = Some (map g l).
Proof. intros A B f g l H. induction l as [|x l IH]; [reflexivity|]. cbn. rewrite H, IH. reflexivity. Qed.
Lemma exempt_exact : forall lu l m d n p, loaded lu l m d -> n <> [] -> first_named lu n l p -> exempted lu l m (Some n) = Some [place d p].
Proof. intros lu l m d n p LD NE F. unfold exempted. rewrite (by_name_exact lu l n p 16 NE F). cbn [map all_some]. rewrite (addr_loaded lu l m d _ LD). reflexivity. Qed.
Lemma exempt_scoped : forall lu l m d n ps, loaded lu l m d -> sound lu l -> n <> [] -> (forall q, In q l -> shown lu q <> n) -> picks (fun p => called n (shown lu p)) l ps ->
  exempted lu l m (Some n) = Some (map (place d) (firstn 16 ps)).
Proof.
  intros lu l m d n ps LD SO NE X P. unfold exempted. rewrite (by_name_scoped lu l n ps 16 NE X SO P). apply all_some_map. intros p. rewrite (addr_loaded lu l m d _ LD). reflexivity.
Qed.
Lemma underscore_loop : forall l b, leading_underscore_loop b l = true <-> (b = true \/ exists p, In p l /\ sym p = str "_main") /\ ~ (exists p, In p l /\ sym p = str "main").
Proof.
  induction l as [|q l IH]; intros b; cbn [leading_underscore_loop].
  - split; [intros ->; split; [left; reflexivity|intros (p & [] & _)]|intros ([H|(p & [] & _)] & _); exact H].
  - destruct (bytes_eqb (str "main") (sym q)) eqn:E.
    + apply bytes_eqb_eq in E. split; [discriminate|]. intros (_ & H). exfalso. apply H. exists q. split; [left; reflexivity|congruence].
    + assert (NE : sym q <> str "main") by (intro H; rewrite H, (proj2 (bytes_eqb_eq _ _) eq_refl) in E; discriminate). rewrite IH. split.
      * intros (A & B). split; [|intros (p & [->|I] & S); [contradiction|apply B; exists p; auto]]. destruct (bytes_eqb (str "_main") (sym q)) eqn:F.
        -- apply bytes_eqb_eq in F. right. exists q. split; [left; reflexivity|congruence].
        -- destruct A as [A|(p & I & S)]; [left; exact A|right; exists p; split; [right; exact I|exact S]].
      * intros (A & B). split; [|intros (p & I & S); apply B; exists p; split; [right; exact I|exact S]]. destruct (bytes_eqb (str "_main") (sym q)) eqn:F; [left; reflexivity|].
        destruct A as [A|(p & [->|I] & S)]; [left; exact A| |right; exists p; auto]. rewrite S, (proj2 (bytes_eqb_eq _ _) eq_refl) in F. discriminate.
Qed.
Lemma underscore_ok : forall l, leading_underscore l = true <-> (exists p, In p l /\ sym p = str "_main") /\ ~ (exists p, In p l /\ sym p = str "main").
Proof. intros l. unfold leading_underscore. rewrite underscore_loop. split; intros (A & B); (split; [|exact B]); [destruct A as [A|A]; [discriminate|exact A]|right; exact A]. Qed.

Lemma ldiff_odd : forall k, N.ldiff (1 + 8 * k) 1 = 8 * k.
Proof.
  intros k. apply N.bits_inj. intros i. rewrite N.ldiff_spec. destruct (N.eq_dec i 0) as [->|I].
  - change (N.testbit 1 0) with true. rewrite andb_false_r. replace (8 * k) with (2 * (4 * k)) by lia. rewrite N.testbit_even_0. reflexivity.
  - replace (N.testbit 1 i) with false by (symmetry; destruct i; [congruence|]; destruct p; reflexivity). rewrite andb_true_r. rewrite <- (N.succ_pred i I).
    replace (1 + 8 * k) with (2 * (4 * k) + 1) by lia. replace (8 * k) with (2 * (4 * k)) by lia. rewrite N.testbit_odd_succ, N.testbit_even_succ by lia. reflexivity.
Qed.
Lemma ldiff_even : forall k, N.ldiff (8 * k) 1 = 8 * k.
Proof.
  intros k. apply N.bits_inj. intros i. rewrite N.ldiff_spec. destruct (N.eq_dec i 0) as [->|I].
  - change (N.testbit 1 0) with true. rewrite andb_false_r. replace (8 * k) with (2 * (4 * k)) by lia. rewrite N.testbit_even_0. reflexivity.
  - replace (N.testbit 1 i) with false by (symmetry; destruct i; [congruence|]; destruct p; reflexivity). apply andb_true_r.
Qed.
Lemma virtual_odd : forall k, k < 1000 -> is_virtual_mfp true (1 + 8 * k) = true.
Proof.
  intros k K. unfold is_virtual_mfp. rewrite !andb_true_iff. split; [split|].
  - replace (1 + 8 * k) with (2 * (4 * k) + 1) by lia. apply N.odd_spec. exists (4 * k). reflexivity.
  - apply N.eqb_eq. replace (1 + 8 * k - 1) with (k * 8) by lia. apply N.mod_mul. lia.
  - apply N.ltb_lt. lia.
Qed.
Lemma slot_odd : forall word v k, get_virtual_mfp word v (1 + 8 * k) = word (v + 8 * k).
Proof. intros. unfold get_virtual_mfp. rewrite ldiff_odd. replace (8 * k / 8) with k by (rewrite N.mul_comm, N.div_mul by lia; reflexivity). reflexivity. Qed.
Lemma plain_even : forall f, N.even f = true -> is_virtual_mfp true f = false.
Proof. intros f E. unfold is_virtual_mfp. rewrite <- N.negb_even, E. reflexivity. Qed.
Lemma object_ok : forall word v f, (forall k, k < 1000 -> f = 1 + 8 * k -> get2 true word v f = word (v + 8 * k)) /\ (N.even f = true -> get2 true word v f = f).
Proof.
  intros word v f. split.
  - intros k K ->. unfold get2. rewrite virtual_odd by exact K. apply slot_odd.
  - intros E. unfold get2. rewrite plain_even by exact E. reflexivity.
Qed.
Lemma method_ok : forall lu word l test ts class f object, (forall v k, object = Some v -> k < 1000 -> f = 1 + 8 * k -> get1 true lu word l test ts object class f = Some (word (v + 8 * k))) /\
  (N.even f = true -> get1 true lu word l test ts object class f = Some f).
Proof.
  intros lu word l test ts class f object. split.
  - intros v k -> K ->. unfold get1. rewrite virtual_odd, slot_odd by exact K. reflexivity.
  - intros E. unfold get1. rewrite plain_even by exact E. reflexivity.
Qed.
Lemma mangle_first : forall lu l n p, n <> [] -> first_named lu n l p -> get_mangle lu l n = at_ p.
Proof. intros lu l [|c n] p NE F; [congruence|]. unfold get_mangle. rewrite (exact_first _ _ _ _ F). reflexivity. Qed.
Lemma mangle_none : forall lu l n, (forall q, In q l -> shown lu q <> n) -> get_mangle lu l n = 0.
Proof. intros lu l [|c n] H; [reflexivity|]. unfold get_mangle. rewrite exact_none by exact H. reflexivity. Qed.
Lemma abstract_ok : forall lu word l test ts class k d p t, k < 1000 -> ts <> [] -> first_named lu ts l t -> test = (at_ t + 16 + d) mod 2 ^ 64 ->
  first_named lu (str "_ZTV" ++ class) l p -> at_ p <> 0 -> get1 true lu word l test ts None class (1 + 8 * k) = Some (word ((at_ p + 16 + d) mod 2 ^ 64 + 8 * k)).
Proof.
  intros lu word l test ts class k d p t K TS FT E FP NZ. unfold get1. rewrite virtual_odd by exact K. rewrite (mangle_first lu l (str "_ZTV" ++ class) p) by (discriminate || exact FP). cbv zeta.
  apply N.eqb_neq in NZ. rewrite NZ. rewrite NZ. rewrite slot_odd. unfold vtable_to_ptr, vtable_offset. rewrite (mangle_first lu l ts t TS FT).
  rewrite <- N.add_assoc in E. rewrite (w64_add (at_ t) (16 + d) test (at_ p) E), N.add_assoc. reflexivity.
Qed.
Lemma no_vtable_ok : forall lu word l test ts class k, k < 1000 -> (forall q, In q l -> shown lu q <> str "_ZTV" ++ class /\ shown lu q <> str "_ZTI" ++ class) ->
  get1 true lu word l test ts None class (1 + 8 * k) = None.
Proof.
  intros lu word l test ts class k K H. unfold get1. rewrite virtual_odd by exact K. rewrite !mangle_none by (intros q I; apply (H q I)). reflexivity.
Qed.
