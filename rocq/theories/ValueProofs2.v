(** Proofs about the display of values (C79): what is shown, and that different values are shown differently. *)
From Coq Require Import List NArith ZArith QArith Qabs Qround Bool Arith Lia Lqa.
From Verif Require Import Base LineModel LineSpec JunitModel JunitSpec JunitProofs MessageModel MessageSpec MessageProofs ValueModel ValueSpec ValueProofs.
Import ListNotations.
Local Open Scope N_scope.

Section value_induction.
  Variable P : value -> Prop.
  Hypothesis simple : forall v, (forall a b, v <> VPair a b) -> (forall l, v <> VSeq l) -> (forall l, v <> VTuple l) -> P v.
  Hypothesis pair : forall a b, P a -> P b -> P (VPair a b).
  Hypothesis seqs : forall l, Forall P l -> P (VSeq l).
  Hypothesis tuple : forall l, Forall P l -> P (VTuple l).
  Fixpoint value_induction (v : value) : P v.
  Proof.
    destruct v as [b|z|q|s| |s| |c|l|c|s|s| |a b|l|l]; try (apply simple; intros; discriminate).
    - apply pair; apply value_induction.
    - apply seqs. induction l as [|x l IH]; constructor; [apply value_induction|exact IH].
    - apply tuple. induction l as [|x l IH]; constructor; [apply value_induction|exact IH].
  Defined.
End value_induction.

Definition plainly (st : styles) : Prop := ~ In (str "dark gray") st.
Lemma minus_gray : forall st, plainly st -> filter (fun x => negb (existsb (bytes_eqb x) [str "dark gray"])) (st ++ [str "dark gray"]) = st.
Proof.
  intros st P. rewrite filter_app. replace (filter _ [str "dark gray"]) with (@nil bytes) by reflexivity. rewrite app_nil_r.
  induction st as [|x st IH]; [reflexivity|]. cbn [filter existsb]. destruct (bytes_eqb x (str "dark gray")) eqn:E; [exfalso; apply P; left; apply bytes_eqb_eq; exact E|]. cbn [orb negb]. f_equal. apply IH. intros I. apply P. right. exact I.
Qed.
Lemma gray_leaves : forall st w, plainly st -> is_style w = false -> leaves st (gray w) (grayed st w).
Proof.
  intros st w P H. unfold gray. destruct w as [|c w]; [apply leaves_nil|]. unfold delta.
  assert (A : restyle ([27; 123; 43] ++ dark_gray ++ [125]) st = st ++ [str "dark gray"]) by reflexivity.
  assert (B : restyle ([27; 123; 45] ++ dark_gray ++ [125]) (st ++ [str "dark gray"]) = st) by (exact (minus_gray st P)).
  split.
  - cbn [ink]. change (is_style ([27; 123; 43] ++ dark_gray ++ [125])) with true. cbv iota. cbn [ink]. rewrite H, A. change (is_style ([27; 123; 45] ++ dark_gray ++ [125])) with true. cbv iota. cbn [ink]. rewrite app_nil_r. reflexivity.
  - cbn [behind_line]. change (is_style ([27; 123; 43] ++ dark_gray ++ [125])) with true. cbv iota. rewrite H, A. change (is_style ([27; 123; 45] ++ dark_gray ++ [125])) with true. cbv iota. exact B.
Qed.
Lemma calm : forall s, ~ In 27 s -> is_style s = false.
Proof. intros s H. destruct s as [|c [|d s]]; [reflexivity|reflexivity|]. cbn. destruct (N.eqb_spec c 27) as [->|D]; [exfalso; apply H; left; reflexivity|reflexivity]. Qed.
Lemma calm_one : forall c, is_style [c] = false. Proof. reflexivity. Qed.

(** what is shown, computed *)
Definition commas (st : styles) : list (list (styles * byte)) -> list (styles * byte) := listed st.
Fixpoint pic (st : styles) (rep : bool) (v : value) : list (styles * byte) :=
  match v with
  | VBool b => letters st (if b then str "true" else str "false")
  | VInt z => letters st (to_string_int z)
  | VReal q => letters st (shorten (to_string_real q))
  | VNonfinite s => letters st s
  | VNullptr => letters st (str "nullptr")
  | VText s => between st rep 34 s
  | VNull => letters st (str "(null)")
  | VChar c => between st rep 39 [c]
  | VWide l => between st rep 34 (map narrow l)
  | VWchar c => between st rep 39 [narrow c]
  | VObject s => between st rep 34 s
  | VStreamed s => letters st s
  | VOpaque => letters st (str "?")
  | VPair a b => grayed st (str "(") ++ pic st rep a ++ grayed st (str ", ") ++ pic st rep b ++ grayed st (str ")")
  | VSeq l => if (100 <? length l)%nat then grayed st (str "[") ++ letters st (str "...") ++ grayed st (str "]")
              else grayed st (str "[") ++ listed st (map (pic st rep) l) ++ grayed st (str "]")
  | VTuple l => grayed st (str "(") ++ listed st (map (pic st rep) l) ++ grayed st (str ")")
  end.
Lemma c_str_id : forall s, ~ In 0 s -> c_str s = s.
Proof. induction s as [|c s IH]; intros H; [reflexivity|]. cbn. destruct (N.eqb_spec c 0) as [->|D]; [exfalso; apply H; left; reflexivity|]. f_equal. apply IH. intros I. apply H. right. exact I. Qed.
Lemma between_leaves : forall (st : styles) (rep : bool) (q : byte) (s : bytes), plainly st -> is_style s = false -> leaves st (gray (if rep then [q] else []) ++ [s] ++ gray (if rep then [q] else [])) (between st rep q s).
Proof.
  intros st rep q s P S1. destruct rep; unfold between.
  - apply leaves_app; [apply gray_leaves; [exact P|reflexivity]|]. apply leaves_app; [apply leaves_word, S1|apply gray_leaves; [exact P|reflexivity]].
  - cbn [gray app]. apply leaves_word, S1.
Qed.
Lemma separated_leaves : forall st ls os first, plainly st -> Forall2 (leaves st) ls os -> leaves st (separated ls first) (match os with [] => [] | _ => (if first then [] else grayed st (str ", ")) ++ listed st os end).
Proof.
  intros st ls os first P F. revert first. induction F as [|l o ls os L F IH]; intros first; [apply leaves_nil|]. cbn [separated].
  replace ((if first then [] else grayed st (str ", ")) ++ listed st (o :: os)) with ((if first then [] else grayed st (str ", ")) ++ o ++ match os with [] => [] | _ => grayed st (str ", ") ++ listed st os end).
  - apply leaves_app; [destruct first; [apply leaves_nil|apply gray_leaves; [exact P|reflexivity]]|]. apply leaves_app; [exact L|]. exact (IH false).
  - f_equal. cbn [listed]. destruct os; [apply app_nil_r|reflexivity].
Qed.
Lemma separated_first : forall st ls os, plainly st -> Forall2 (leaves st) ls os -> leaves st (separated ls true) (listed st os).
Proof. intros st ls os P F. pose proof (separated_leaves st ls os true P F) as H. destruct os; exact H. Qed.
Lemma pic_leaves : forall st rep v, plainly st -> quiet v -> leaves st (print rep v) (pic st rep v).
Proof.
  intros st rep v P. induction v as [v N1 N2 N3|a b IHa IHb|l IH|l IH] using value_induction; intros Q.
  - destruct Q; cbn [print pic].
    + apply leaves_word. destruct b; reflexivity.
    + rewrite (proj1 (int_text z)). apply leaves_word, calm. unfold to_string_int. destruct z; [apply dec_no; lia|apply dec_no; lia|]. intros [E|E]; [discriminate|]. revert E. apply dec_no. lia.
    + apply leaves_word, calm. destruct (real_text q) as (n & d & f & _ & -> & (D & _) & F). intros I. apply in_app_or in I. destruct I as [I|I]; [destruct (Qle_bool 0 q); [destruct I|destruct I as [I|[]]; discriminate]|].
      apply in_app_or in I. rewrite Forall_forall in D. destruct I as [I|I]; [specialize (D 27 I); lia|]. destruct F as [(_ & ->)|(_ & ds & c & -> & _ & F & _)]; [destruct I|]. destruct I as [I|I]; [discriminate|]. rewrite Forall_forall in F. specialize (F 27 I). lia.
    + unfold shorten. rewrite existsb_false by assumption. apply leaves_word, calm. assumption.
    + apply leaves_word. reflexivity.
    + destruct H as (A & B). unfold print_text, quote. rewrite (c_str_id s A). apply between_leaves; [exact P|apply calm, B].
    + apply leaves_word. reflexivity.
    + apply between_leaves; [exact P|reflexivity].
    + assert (K : ~ In 0 (map narrow l) /\ ~ In 27 (map narrow l)).
      { rewrite Forall_forall in H. split; intros I; apply in_map_iff in I; destruct I as (c & E & I); specialize (H c I); unfold narrow in E; destruct (Z.leb_spec c 255); try discriminate; rewrite Z.mod_small in E by lia; lia. }
      unfold print_text, quote. rewrite (c_str_id _ (proj1 K)). apply between_leaves; [exact P|apply calm, K].
    + apply between_leaves; [exact P|reflexivity].
    + unfold quote. apply between_leaves; [exact P|apply calm; assumption].
    + destruct H as (A & B). rewrite (c_str_id s A). apply leaves_word, calm, B.
    + apply leaves_word. reflexivity.
    + exfalso. apply (N1 a b). reflexivity.
    + exfalso. apply (N2 l). reflexivity.
    + exfalso. apply (N3 l). reflexivity.
  - inversion Q; subst. cbn [print pic]. repeat (apply leaves_app); auto; apply gray_leaves; auto.
  - inversion Q; subst. cbn [print pic]. destruct (100 <? length l)%nat.
    + repeat (apply leaves_app); [apply gray_leaves; auto|apply leaves_word; reflexivity|apply gray_leaves; auto].
    + apply leaves_app; [apply gray_leaves; auto|]. apply leaves_app; [|apply gray_leaves; auto]. apply separated_first; [exact P|].
      clear - IH H0. induction l as [|x l IHl]; cbn [map]; constructor; inversion IH; inversion H0; subst; auto.
  - inversion Q; subst. cbn [print pic]. apply leaves_app; [apply gray_leaves; auto|]. apply leaves_app; [|apply gray_leaves; auto]. apply separated_first; [exact P|].
    clear - IH H0. induction l as [|x l IHl]; cbn [map]; constructor; inversion IH; inversion H0; subst; auto.
Qed.
Lemma visible_narrow : forall c, (0 <= c)%Z -> visible c (narrow c).
Proof. intros c H. unfold visible, narrow. destruct (Z.leb_spec c 255) as [L|L]; [left|right; split; [exact L|reflexivity]]. rewrite Z.mod_small by lia. rewrite Z2N.id by exact H. split; [reflexivity|exact L]. Qed.
Lemma pic_shown : forall st rep v, quiet v -> shown st rep v (pic st rep v).
Proof.
  intros st rep v. induction v as [v N1 N2 N3|a b IHa IHb|l IH|l IH] using value_induction; intros Q.
  - destruct Q; cbn [pic]; try (constructor; fail).
    + destruct b; constructor.
    + constructor. apply int_text.
    + constructor. apply real_text.
    + constructor. induction H as [|c l (C & _) H IH]; cbn [map]; constructor; [apply visible_narrow; lia|]. apply IH; intros; discriminate.
    + constructor. apply visible_narrow; assumption.
    + exfalso. apply (N1 a b). reflexivity.
    + exfalso. apply (N2 l). reflexivity.
    + exfalso. apply (N3 l). reflexivity.
  - inversion Q; subst. cbn [pic]. constructor; auto.
  - inversion Q; subst. cbn [pic]. destruct (Nat.ltb_spec 100 (length l)) as [L|L]; [apply shown_long, L|]. constructor; [exact L|].
    clear - IH H0. induction l as [|x l IHl]; cbn [map]; constructor; inversion IH; inversion H0; subst; auto.
  - inversion Q; subst. cbn [pic]. constructor. clear - IH H0. induction l as [|x l IHl]; cbn [map]; constructor; inversion IH; inversion H0; subst; auto.
Qed.
Lemma display_ok : forall st rep v, ~ In (str "dark gray") st -> quiet v -> shown st rep v (ink st (print rep v)) /\ behind_line st (print rep v) = st.
Proof. intros st rep v P Q. destruct (pic_leaves st rep v P Q) as (A & B). split; [rewrite A; apply pic_shown, Q|exact B]. Qed.

(* ---- different values ---- *)
Definition dimmed (st : styles) : styles := st ++ [str "dark gray"].
Definition edge (st : styles) (r : list (styles * byte)) : Prop := match r with [] => True | p :: _ => fst p = dimmed st end.
Lemma dimmed_other : forall st, dimmed st <> st.
Proof. intros st H. apply (f_equal (@length bytes)) in H. unfold dimmed in H. rewrite app_length in H. cbn in H. lia. Qed.
Lemma letters_edge : forall st a b r r', edge st r -> edge st r' -> letters st a ++ r = letters st b ++ r' -> a = b /\ r = r'.
Proof.
  intros st a. induction a as [|x a IH]; intros b r r' E E' H.
  - destruct b as [|y b]; [split; [reflexivity|exact H]|]. exfalso. cbn in H. subst r. cbn in E. apply (dimmed_other st). symmetry. exact E.
  - destruct b as [|y b]; [exfalso; cbn in H; subst r'; cbn in E'; apply (dimmed_other st); symmetry; exact E'|]. cbn in H. inversion H as [[Q R]]. destruct (IH b r r' E E' R) as (-> & ->). split; reflexivity.
Qed.
Lemma gray_edge : forall st c s r, edge st (grayed st (c :: s) ++ r). Proof. reflexivity. Qed.
Lemma decimal_val : forall d n, decimal d n -> val d = n. Proof. intros d n (_ & V & _). exact V. Qed.
Lemma decimal_head : forall d n x r, decimal d n -> d = x :: r -> 48 <= x <= 57. Proof. intros d n x r (F & _) ->. inversion F. assumption. Qed.
Lemma whole_one : forall z w t, whole z t -> whole w t -> z = w.
Proof.
  intros z w t [(A & D)|(A & d & E & D)] [(B & D')|(B & d' & E' & D')].
  - apply decimal_val in D, D'. lia.
  - exfalso. pose proof (decimal_head _ _ 45 d' D E'). lia.
  - exfalso. pose proof (decimal_head _ _ 45 d D' E). lia.
  - assert (X : d = d') by congruence. subst d'. apply decimal_val in D, D'. lia.
Qed.
Lemma nearest_whole : forall n m, nearest (Z.of_N n # 1000000) m -> m = n.
Proof.
  intros n m (A & _). assert (E : ((Z.of_N n # 1000000) * inject_Z 1000000 == inject_Z (Z.of_N n))%Q) by (unfold Qeq, inject_Z; cbn; lia). rewrite E in A. clear E.
  apply Qabs_Qle_condition in A. destruct A as (A & B). destruct (N.lt_trichotomy m n) as [L|[L|L]]; [exfalso|exact L|exfalso].
  - assert (inject_Z (Z.of_N m) + 1 <= inject_Z (Z.of_N n))%Q by (change 1%Q with (inject_Z 1); rewrite <- inject_Z_plus, <- Zle_Qle; lia). lra.
  - assert (inject_Z (Z.of_N n) + 1 <= inject_Z (Z.of_N m))%Q by (change 1%Q with (inject_Z 1); rewrite <- inject_Z_plus, <- Zle_Qle; lia). lra.
Qed.
Lemma digits_point : forall d d' f f', Forall (fun c => 48 <= c <= 57) d -> Forall (fun c => 48 <= c <= 57) d' -> (f = [] \/ exists r, f = 46 :: r) -> (f' = [] \/ exists r, f' = 46 :: r) -> d ++ f = d' ++ f' -> d = d' /\ f = f'.
Proof.
  induction d as [|x d IH]; intros d' f f' D D' F F' E; destruct d' as [|y d'].
  - split; [reflexivity|exact E].
  - exfalso. cbn in E. destruct F as [->|(r & ->)]; [discriminate|]. inversion E; subst. inversion D'; subst. lia.
  - exfalso. cbn in E. destruct F' as [->|(r & ->)]; [discriminate|]. inversion E; subst. inversion D; subst. lia.
  - inversion E; subst. inversion D; inversion D'; subst. destruct (IH d' f f') as (-> & ->); auto.
Qed.
Lemma decimals_one : forall m m' f, decimals m f -> decimals m' f -> m = m'.
Proof.
  intros m m' f [(-> & ->)|(_ & ds & c & -> & _ & _ & _ & V)] [(-> & E)|(_ & ds' & c' & E & _ & _ & _ & V')]; [reflexivity|discriminate|discriminate|]. inversion E as [E']. rewrite E' in V. congruence.
Qed.
Lemma decimals_point : forall m f, decimals m f -> f = [] \/ exists r, f = 46 :: r.
Proof. intros m f [(_ & ->)|(_ & ds & c & -> & _)]; [left; reflexivity|right; eexists; reflexivity]. Qed.
Lemma sign_one : forall z, Qle_bool 0 (z # 1000000) = (0 <=? z)%Z.
Proof. intros z. unfold Qle_bool. cbn. f_equal. lia. Qed.
Lemma fractional_one : forall z w t, fractional (z # 1000000) t -> fractional (w # 1000000) t -> z = w.
Proof.
  intros z w t (n & d & f & A & E & D & F) (n' & d' & f' & A' & E' & D' & F').
  assert (G : forall z n, nearest (Qabs (z # 1000000)) n -> n = Z.to_N (Z.abs z)).
  { clear. intros z n H. apply (nearest_whole (Z.to_N (Z.abs z))). rewrite Z2N.id by lia. exact H. }
  apply G in A, A'. rewrite sign_one in E, E'.
  assert (K : (0 <=? z)%Z = (0 <=? w)%Z).
  { rewrite E in E'. destruct (0 <=? z)%Z, (0 <=? w)%Z; try reflexivity; exfalso; cbn in E'.
    - destruct D as (D & _ & NE & _). destruct d as [|x d]; [contradiction|]. cbn in E'. inversion E'; subst. inversion D; subst. lia.
    - destruct D' as (D' & _ & NE & _). destruct d' as [|x d']; [contradiction|]. cbn in E'. inversion E'; subst. inversion D'; subst. lia. }
  rewrite E, K in E'. apply app_inv_head in E'.
  destruct (digits_point d d' f f') as (-> & ->); [apply D|apply D'|eapply decimals_point, F|eapply decimals_point, F'|exact E'|].
  apply decimal_val in D, D'. pose proof (decimals_one _ _ _ F F') as M. assert (NN : n = n').
  { rewrite (N.div_mod n 1000000), (N.div_mod n' 1000000) by discriminate. congruence. }
  subst n'. assert (AB : Z.abs z = Z.abs w) by lia. destruct (Z.leb_spec 0 z), (Z.leb_spec 0 w); try discriminate; lia.
Qed.
Lemma between_edge : forall st q s s' r r', edge st r -> edge st r' -> between st true q s ++ r = between st true q s' ++ r' -> s = s' /\ r = r'.
Proof.
  intros st q s s' r r' E E' H. unfold between in H. rewrite <- !app_assoc in H. apply app_inv_head in H. apply letters_edge in H; [|reflexivity|reflexivity]. destruct H as (-> & H). apply app_inv_head in H. split; [reflexivity|exact H].
Qed.
Definition apart (st : styles) (v : value) : Prop := forall t w r r', has t v -> has t w -> edge st r -> edge st r' -> pic st true v ++ r = pic st true w ++ r' -> v = w /\ r = r'.
(** a picture begins with a letter, or with a bracket or quotation mark *)
Lemma pic_begins : forall st t v, has t v -> exists p o, pic st true v = p :: o /\ (fst p = st \/ (fst p = dimmed st /\ In (snd p) [34; 39; 40; 91])).
Proof.
  intros st t v H. destruct H; cbn [pic]; try (eexists; eexists; split; [reflexivity|]; right; split; [reflexivity|cbn; tauto]).
  - destruct b; eexists; eexists; (split; [reflexivity|]); left; reflexivity.
  - destruct (int_text z) as (_ & W). destruct (to_string_int z) as [|c s]; [exfalso; destruct W as [(_ & _ & _ & W & _)|(_ & d & W & _)]; [apply W; reflexivity|discriminate]|].
    eexists; eexists; (split; [reflexivity|]); left; reflexivity.
  - destruct (real_text (z # 1000000)) as (n & d & f & _ & E & (_ & _ & NE & _) & _). destruct (shorten _) as [|c s]; [exfalso; destruct (Qle_bool 0 (z # 1000000)); [destruct d; [contradiction|discriminate]|discriminate]|].
    eexists; eexists; (split; [reflexivity|]); left; reflexivity.
  - eexists; eexists; (split; [reflexivity|]); left; reflexivity.
  - replace (100 <? length l)%nat with false by (symmetry; apply Nat.ltb_ge; assumption). eexists; eexists; split; [reflexivity|]; right; split; [reflexivity|cbn; tauto].
Qed.
Lemma listed_apart : forall st c l ts ls l' r r', Forall (apart st) l -> Forall2 has ts l -> Forall2 has ls l' -> (exists t, ts = repeat t (length l) /\ ls = repeat t (length l')) \/ ts = ls -> edge st r -> edge st r' -> c = 93 \/ c = 41 ->
  listed st (map (pic st true) l) ++ grayed st [c] ++ r = listed st (map (pic st true) l') ++ grayed st [c] ++ r' -> l = l' /\ r = r'.
Proof.
  intros st c l. induction l as [|v l IH]; intros ts ls l' r r' A H H' T E E' C X; destruct l' as [|w l'].
  - cbn in X. apply app_inv_head in X || inversion X. split; [reflexivity|]. congruence.
  - exfalso. inversion H' as [|t1 ? ts1 ? HV HL]; subst. destruct (pic_begins st _ _ HV) as (p & o & PB & PS).
    assert (Y : exists o', listed st (map (pic st true) (w :: l')) = p :: o') by (cbn [map listed]; rewrite PB; destruct (map (pic st true) l'); eexists; reflexivity). destruct Y as (o' & Y). rewrite Y in X. cbn in X. inversion X; subst.
    destruct PS as [PS|(_ & PS)]; cbn in PS; [apply (dimmed_other st); exact PS|]. destruct C; subst c; intuition discriminate.
  - exfalso. inversion H as [|t1 ? ts1 ? HV HL]; subst. destruct (pic_begins st _ _ HV) as (p & o & PB & PS).
    assert (Y : exists o', listed st (map (pic st true) (v :: l)) = p :: o') by (cbn [map listed]; rewrite PB; destruct (map (pic st true) l); eexists; reflexivity). destruct Y as (o' & Y). rewrite Y in X. cbn in X. inversion X; subst.
    destruct PS as [PS|(_ & PS)]; cbn in PS; [apply (dimmed_other st); exact PS|]. destruct C; subst c; intuition discriminate.
  - inversion A as [|? ? AV AL]; subst. inversion H as [|t1 ? ts1 ? HV HL]; subst. inversion H' as [|t2 ? ts2 ? HW HL']; subst.
    assert (TT : t1 = t2 /\ ((exists t, ts1 = repeat t (length l) /\ ts2 = repeat t (length l')) \/ ts1 = ts2)).
    { destruct T as [(t & T1 & T2)|T]; [cbn in T1, T2; inversion T1; inversion T2; subst; split; [reflexivity|left; eexists; split; reflexivity]|inversion T; split; [reflexivity|right; reflexivity]]. }
    destruct TT as (-> & TT).
    assert (Z : forall x m rest, listed st (map (pic st true) (x :: m)) ++ grayed st [c] ++ rest = pic st true x ++ (match m with [] => [] | _ => grayed st (str ", ") ++ listed st (map (pic st true) m) end ++ grayed st [c] ++ rest)).
    { intros x m rest. cbn [map listed]. destruct m; [reflexivity|]. cbn [map]. rewrite <- !app_assoc. reflexivity. }
    rewrite !Z in X. apply (AV t2 w _ _ HV HW) in X; [|destruct l; reflexivity|destruct l'; reflexivity]. destruct X as (-> & X).
    destruct l as [|v1 l], l' as [|w1 l'].
    + cbn in X. inversion X. split; reflexivity.
    + exfalso. cbn in X. destruct C; subst c; discriminate X.
    + exfalso. cbn in X. destruct C; subst c; discriminate X.
    + rewrite <- !(app_assoc (grayed st (str ", "))) in X. apply app_inv_head in X. destruct (IH ts1 ts2 (w1 :: l') r r' AL HL HL' TT E E' C X) as (EQ & ->). rewrite EQ. split; reflexivity.
Qed.
Lemma Forall_repeat : forall t l, Forall (has t) l -> Forall2 has (repeat t (length l)) l.
Proof. intros t l H. induction H; cbn; constructor; assumption. Qed.
Lemma apart_all : forall st v, apart st v.
Proof.
  intros st v. induction v as [v N1 N2 N3|a b IHa IHb|l IH|l IH] using value_induction; intros t w r r' H H' E E' X.
  - destruct H; inversion H'; subst; cbn [pic] in X; try (exfalso; eapply N1; reflexivity); try (exfalso; eapply N2; reflexivity); try (exfalso; eapply N3; reflexivity).
    + apply letters_edge in X; try assumption. destruct X as (Q & ->). split; [destruct b, b0; (reflexivity || discriminate Q)|reflexivity].
    + apply letters_edge in X; try assumption. destruct X as (Q & ->). split; [|reflexivity]. f_equal. eapply whole_one; [apply int_text|]. rewrite Q. apply int_text.
    + apply letters_edge in X; try assumption. destruct X as (Q & ->). split; [|reflexivity]. do 2 f_equal. eapply fractional_one; [apply real_text|]. rewrite Q. apply real_text.
    + apply between_edge in X; try assumption. destruct X as (-> & ->). split; reflexivity.
    + exfalso. cbn in X. discriminate X.
    + exfalso. cbn in X. discriminate X.
    + apply letters_edge in X; try assumption. destruct X as (_ & ->). split; reflexivity.
    + apply between_edge in X; try assumption. destruct X as (Q & ->). inversion Q. split; reflexivity.
  - inversion H as [| | | | | |ta tb ? ? HA HB| |]; subst. inversion H' as [| | | | | |ta' tb' v w' HA' HB'| |]; subst. cbn [pic] in X. rewrite <- !app_assoc in X. apply app_inv_head in X. apply (IHa ta v) in X; try assumption; try reflexivity. destruct X as (-> & X). apply app_inv_head in X.
    apply (IHb tb w') in X; try assumption; try reflexivity. destruct X as (-> & X). apply app_inv_head in X. split; [reflexivity|exact X].
  - inversion H; subst. inversion H'; subst. cbn [pic] in X.
    replace (100 <? length l)%nat with false in X by (symmetry; apply Nat.ltb_ge; assumption). replace (100 <? length l0)%nat with false in X by (symmetry; apply Nat.ltb_ge; assumption).
    rewrite <- !app_assoc in X. apply app_inv_head in X.
    destruct (listed_apart st 93 l (repeat a (length l)) (repeat a (length l0)) l0 r r' IH) as (-> & ->); auto; try (apply Forall_repeat; assumption). left. eexists. split; reflexivity.
  - inversion H; subst. inversion H'; subst. cbn [pic] in X. rewrite <- !app_assoc in X. apply app_inv_head in X.
    destruct (listed_apart st 41 l ts ts l0 r r' IH) as (-> & ->); auto.
Qed.
Lemma has_quiet : forall v t, has t v -> quiet v.
Proof.
  intros v. induction v as [v N1 N2 N3|a b IHa IHb|l IH|l IH] using value_induction; intros t H.
  - destruct H; try (constructor; assumption); try constructor; exfalso; [eapply N1|eapply N1|eapply N2|eapply N3]; reflexivity.
  - inversion H; subst. constructor; eauto.
  - inversion H; subst. constructor. clear - IH H3. induction l; inversion IH; inversion H3; subst; constructor; eauto.
  - inversion H as [| | | | | | | |ts ? F]; subst. constructor. clear - IH F. revert ts F. induction l as [|x l IHl]; intros ts F; inversion IH; inversion F; subst; constructor; eauto.
Qed.
Lemma distinct_ok : forall st t v w, ~ In (str "dark gray") st -> has t v -> has t w -> ink st (print true v) = ink st (print true w) -> v = w.
Proof.
  intros st t v w P H H' X. destruct (pic_leaves st true v P (has_quiet _ _ H)) as (A & _). destruct (pic_leaves st true w P (has_quiet _ _ H')) as (B & _). rewrite A, B in X.
  apply (apart_all st v t w [] []); auto; try exact I. rewrite X. reflexivity.
Qed.
Lemma nul_lost : exists v w, v <> w /\ ink [] (print true v) = ink [] (print true w) /\ v = VText (str "a") /\ w = VText (str "a" ++ [0] ++ str "b").
Proof. exists (VText (str "a")), (VText (str "a" ++ [0] ++ str "b")). repeat split; try (vm_compute; reflexivity). discriminate. Qed.
Lemma many_alike : forall st l m, (100 < length l)%nat -> (100 < length m)%nat -> ink st (print true (VSeq l)) = ink st (print true (VSeq m)).
Proof. intros st l m L M. cbn [print]. apply Nat.ltb_lt in L, M. rewrite L, M. reflexivity. Qed.
Lemma many_lost : exists l m, l <> m /\ length l = length m /\ Forall (has TInt) l /\ Forall (has TInt) m /\ ink [] (print true (VSeq l)) = ink [] (print true (VSeq m)).
Proof.
  exists (repeat (VInt 1) 101), (repeat (VInt 2) 101). split; [discriminate|]. split; [reflexivity|].
  split; [apply Forall_forall; intros x I; apply repeat_spec in I; subst; constructor|]. split; [apply Forall_forall; intros x I; apply repeat_spec in I; subst; constructor|]. apply many_alike; vm_compute; lia.
Qed.
Lemma small_lost : exists p q, ~ (p == q)%Q /\ ink [] (print true (VReal p)) = letters [] (str "0") /\ ink [] (print true (VReal q)) = letters [] (str "0").
Proof. exists (0 # 1)%Q, (1 # 10000000)%Q. split; [discriminate|]. split; vm_compute; reflexivity. Qed.
Lemma display_example :
  let st := [str "red"] in let v := VPair (VSeq [VInt (-12); VReal (5 # 4); VBool true]) (VTuple [VText (str "ab"); VChar 99; VNull]) in
  ~ In (str "dark gray") st /\ quiet v /\ map snd (ink st (print true v)) = str "([-12, 1.25, true], (" ++ [34] ++ str "ab" ++ [34] ++ str ", 'c', (null)))" /\
  map snd (ink st (print false v)) = str "([-12, 1.25, true], (ab, c, (null)))" /\
  ink st (print true (VPair (VInt 7) (VWchar 955))) = grayed st (str "(") ++ letters st (str "7") ++ grayed st (str ", '") ++ letters st (str "?") ++ grayed st (str "')").
Proof.
  cbv zeta. split; [intros [E|[]]; discriminate|]. split; [|split; [vm_compute; reflexivity|split; vm_compute; reflexivity]].
  constructor; constructor; repeat constructor; cbn; intuition discriminate.
Qed.
Lemma distinct_example :
  let t := TPair (TSeq TText) (TTuple [TReal; TChar]) in
  has t (VPair (VSeq [VText (str "a"); VText (str "b")]) (VTuple [VReal (1500000 # 1000000); VChar 44])) /\
  has t (VPair (VSeq [VText (str "a" ++ [34] ++ str ", " ++ [34] ++ str "b")]) (VTuple [VReal (1500000 # 1000000); VChar 44])) /\
  map snd (ink [] (print true (VSeq [VText (str "a"); VText (str "b")]))) = map snd (ink [] (print true (VSeq [VText (str "a" ++ [34] ++ str ", " ++ [34] ++ str "b")]))).
Proof.
  cbv zeta. split; [|split; [|vm_compute; reflexivity]].
  - repeat constructor; cbn; intuition discriminate.
  - repeat constructor; cbn; intuition discriminate.
Qed.
Lemma real_example : fractional (1 # 3) (str "0.333333") /\ fractional (-2 # 1) (str "-2") /\ fractional (5 # 10000000) (str "0") /\ fractional (15 # 10000000) (str "0.000002").
Proof.
  assert (G : forall q t, shorten (to_string_real q) = t -> fractional q t) by (intros q t <-; apply real_text).
  split; [apply G; vm_compute; reflexivity|]. split; [apply G; vm_compute; reflexivity|]. split; apply G; vm_compute; reflexivity.
Qed.
