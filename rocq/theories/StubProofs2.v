From Coq Require Import List NArith ZArith Bool Lia Arith.
From Verif Require Import StubModel StubSpec StubProofs.
Import ListNotations.
Local Open Scope N_scope.

(** entries tagged with their scope, in the order of the stub list *)
Fixpoint ann (fs : list frame) : list (N * (N * N * N)) :=
  match fs with [] => [] | f :: r => map (pair (N.of_nat (length r))) f ++ ann r end.
Lemma ann_concat : forall fs, map snd (ann fs) = concat fs.
Proof. induction fs as [|f fs IH]; cbn; auto. rewrite map_app, IH, map_map. cbn. rewrite map_id. auto. Qed.
Lemma ann_scope : forall fs a, In a (ann fs) -> fst a < N.of_nat (length fs).
Proof.
  induction fs as [|f fs IH]; cbn [ann length]; intros a H; [destruct H|]. apply in_app_or in H. destruct H as [H|H].
  - apply in_map_iff in H. destruct H as (e & <- & _). cbn [fst]. lia.
  - apply IH in H. lia.
Qed.

Definition al (x : N * stub) (a : N * (N * N * N)) : Prop :=
  fst x = fst a /\ t_src (snd x) = ent_src (snd a) /\ t_source (snd x) = ent_fp (snd a).

Fixpoint chain (m : mem) (fp : N) (cur : list N) (ts : list (N * stub)) (es : list (N * (N * N * N))) : Prop :=
  match ts, es with
  | [], [] => cur = get m fp 12
  | x :: ts', e :: es' => if t_source (snd x) =? fp then x86_jump fp cur = Some (ent_dst (snd e)) /\ chain m fp (t_saved (snd x)) ts' es'
                          else chain m fp cur ts' es'
  | _, _ => False
  end.

Lemma chain_skip : forall m fp l1 a1 cur l2 a2, length l1 = length a1 -> (forall y, In y l1 -> t_source (snd y) <> fp) ->
  (chain m fp cur (l1 ++ l2) (a1 ++ a2) <-> chain m fp cur l2 a2).
Proof.
  induction l1 as [|x l1 IH]; destruct a1 as [|a a1]; cbn [length app chain]; intros cur l2 a2 L H; try discriminate; [tauto|].
  pose proof (H x (or_introl eq_refl)) as Hx. apply N.eqb_neq in Hx. rewrite Hx. apply IH; auto. intros y Hy. apply H. right. auto.
Qed.
(** dropping an entry of another function *)
Lemma chain_drop : forall m fp l1 a1 cur x a l2 a2, length l1 = length a1 -> t_source (snd x) <> fp ->
  (chain m fp cur (l1 ++ x :: l2) (a1 ++ a :: a2) <-> chain m fp cur (l1 ++ l2) (a1 ++ a2)).
Proof.
  induction l1 as [|y l1 IH]; destruct a1 as [|b a1]; cbn [length app chain]; intros cur x a l2 a2 L H; try discriminate.
  - apply N.eqb_neq in H. rewrite H. tauto.
  - destruct (t_source (snd y) =? fp); rewrite IH; auto; tauto.
Qed.
(** changing the substitute in an entry of another function *)
Lemma chain_other : forall m fp l1 a1 cur x a a' l2 a2, length l1 = length a1 -> t_source (snd x) <> fp ->
  chain m fp cur (l1 ++ x :: l2) (a1 ++ a :: a2) -> chain m fp cur (l1 ++ x :: l2) (a1 ++ a' :: a2).
Proof. intros m fp l1 a1 cur x a a' l2 a2 L H C. apply chain_drop; auto. apply chain_drop in C; auto. Qed.

Record NI (m : mem) (A : list (N * (N * N * N))) (st : state) : Prop := mkNI {
  NI_inv : Inv m st;
  NI_al : Forall2 al (stubs st) A;
  NI_lim : forall sc t, In (sc, t) (stubs st) -> t_source t < 2 ^ 64;
  NI_chain : forall fp, In fp (map s_fp (sources st)) -> chain m fp (get (code st) fp 12) (stubs st) A }.

Lemma F2_length : forall (A B : Type) (R : A -> B -> Prop) l l', Forall2 R l l' -> length l = length l'.
Proof. intros A B R l l' H. induction H; cbn; auto. Qed.
Lemma Forall2_split : forall (l1 : list (N * stub)) x l2 A, Forall2 al (l1 ++ x :: l2) A ->
  exists a1 a a2, A = a1 ++ a :: a2 /\ length l1 = length a1 /\ al x a /\ Forall2 al l1 a1 /\ Forall2 al l2 a2.
Proof.
  intros l1 x l2 A H. apply Forall2_app_inv_l in H. destruct H as (a1 & r & H1 & H2 & ->). inversion H2; subst.
  exists a1, y, l'. repeat split; auto; try apply H3. eapply F2_length; eauto.
Qed.

Lemma chain_none : forall m fp cur l a, length l = length a -> (forall y, In y l -> t_source (snd y) <> fp) ->
  (chain m fp cur l a <-> cur = get m fp 12).
Proof.
  intros m fp cur l a L H. pose proof (chain_skip m fp l a cur [] [] L H) as S. rewrite !app_nil_r in S. rewrite S. cbn. tauto.
Qed.

Lemma delete_NI : forall m a1 a a2 c ss l1 sc t l2, NI m (a1 ++ a :: a2) (mkstate c ss (l1 ++ (sc, t) :: l2)) ->
  length l1 = length a1 -> (forall y, In y l1 -> t_source (snd y) <> t_source t) ->
  NI m (a1 ++ a2) (stub_delete (mkstate c ss (l1 ++ l2)) t).
Proof.
  intros m a1 a a2 c ss l1 sc t l2 [I F X C] L H. cbn [stubs code sources] in *.
  pose proof (delete_inv _ _ _ _ _ _ _ I) as I'.
  assert (F' : Forall2 al (l1 ++ l2) (a1 ++ a2)).
  { destruct (Forall2_split _ _ _ _ F) as (b1 & b & b2 & E & L' & _ & F1 & F2).
    assert (L1 : length a1 = length b1) by congruence.
    assert (E1 : a1 = b1 /\ a :: a2 = b :: b2).
    { clear -E L1. revert b1 E L1. induction a1 as [|y a1 IH]; destruct b1 as [|z b1]; cbn; intros E L1; try discriminate; auto.
      injection E as -> E. injection L1 as L1. destruct (IH _ E L1) as [-> ->]. auto. }
    destruct E1 as [-> E2]. injection E2 as -> ->. apply Forall2_app; auto. }
  assert (St : stubs (stub_delete (mkstate c ss (l1 ++ l2)) t) = l1 ++ l2).
  { unfold stub_delete, source_del. cbn [stubs sources code]. match goal with |- context [find_source ?a ?b] => destruct (find_source a b) end; auto. destruct (_ =? 0); auto. }
  assert (Hin : forall y, In y (l1 ++ l2) -> In y (l1 ++ (sc, t) :: l2)).
  { intros y Hy. apply in_app_or in Hy. apply in_or_app. destruct Hy; auto. right. right. auto. }
  destruct (I_stub _ _ I sc t (in_elt _ _ _)) as [Tin Tlen]. cbn [sources] in Tin.
  constructor; auto.
  - rewrite St. auto.
  - intros sc' t' Ht. rewrite St in Ht. apply (X sc'). auto.
  - intros fp Hfp. rewrite St. pose proof (Inv_apart_fp _ _ fp (t_source t) I) as Ap. cbn [sources] in Ap.
    pose proof (I_src _ _ I) as O. cbn [sources stubs] in O.
    revert Hfp. unfold stub_delete, source_del. cbn [code sources stubs].
    pose proof (find_source_spec (mkstate (e9_reset c (t_source t) (t_saved t)) ss (l1 ++ l2)) (t_source t)) as Fs.
    destruct (find_source _ _) as [s|]; [|contradiction]. destruct Fs as [Fs1 Fs2]. cbn [sources] in Fs1.
    assert (Core : In fp (map s_fp ss) -> chain m fp (get (e9_reset c (t_source t) (t_saved t)) fp 12) (l1 ++ l2) (a1 ++ a2)).
    { intro Hfp. specialize (C fp Hfp). destruct (N.eq_dec fp (t_source t)) as [->|N].
      - rewrite chain_skip in C by auto. cbn [chain snd] in C. rewrite N.eqb_refl in C. destruct C as [_ C].
        rewrite chain_skip by auto. unfold e9_reset. rewrite <- Tlen at 1. rewrite get_put_same. exact C.
      - apply chain_drop in C; [|auto|cbn; auto]. unfold e9_reset. rewrite get_put_other; auto; [lia|].
        specialize (Ap Hfp Tin). unfold apart in *. lia. }
    destruct (s_ref s - 1 =? 0); cbn [code sources].
    + intro Hfp. apply in_map_iff in Hfp. destruct Hfp as (s' & <- & Hs'). apply filter_In in Hs'. destruct Hs' as [Hs' Hne].
      apply negb_true_iff, N.eqb_neq in Hne. destruct (O s Fs1) as (O1 & _).
      unfold e9_reset at 1. rewrite get_put_other.
      * apply Core. apply in_map. auto.
      * rewrite O1, get_length. lia.
      * specialize (Ap (in_map _ _ _ Hs') Tin). unfold apart in *. lia.
      * auto.
    + rewrite set_ref_fps. apply Core.
Qed.

(** *** frames *)
Definition good (f : frame) : Prop := NoDup (map ent_src f) /\ NoDup (map ent_fp f).

Lemma split_frame : forall (d : N) (f : frame) R a1 a a2, (forall b, In b R -> fst b < d) -> map (pair d) f ++ R = a1 ++ a :: a2 -> fst a = d ->
  exists c1 c2, f = c1 ++ snd a :: c2 /\ a1 = map (pair d) c1 /\ a2 = map (pair d) c2 ++ R.
Proof.
  induction f as [|e f IH]; intros R a1 a a2 HR E Ha; cbn [map app] in E.
  - exfalso. assert (In a R) by (rewrite E; apply in_elt). apply HR in H. lia.
  - destruct a1 as [|b a1]; cbn [app] in E.
    + injection E as E1 E2. exists [], f. subst. repeat split; auto.
    + injection E as E1 E2. destruct (IH _ _ _ _ HR E2 Ha) as (c1 & c2 & X & Y & Z). exists (e :: c1), c2. subst. repeat split; auto.
Qed.

Lemma NoDup_mid : forall (A B : Type) (g : A -> B) c1 e c2, NoDup (map g (c1 ++ e :: c2)) ->
  (forall y, In y c1 -> g y <> g e) /\ (forall y, In y c2 -> g y <> g e) /\ NoDup (map g (c1 ++ c2)).
Proof.
  intros A B g c1 e c2 H. rewrite map_app in H. cbn [map] in H. pose proof (NoDup_remove_1 _ _ _ H) as H1. pose proof (NoDup_remove_2 _ _ _ H) as H2.
  rewrite <- map_app in H1. repeat split; auto; intros y Hy E; apply H2; rewrite <- E; apply in_or_app; [left|right]; apply in_map; auto.
Qed.

Lemma remove_mid : forall c1 e c2 src, ent_src e = src -> (forall y, In y c1 -> ent_src y <> src) -> (forall y, In y c2 -> ent_src y <> src) ->
  frame_remove (c1 ++ e :: c2) src = c1 ++ c2.
Proof.
  intros c1 e c2 src He H1 H2. unfold frame_remove. rewrite filter_app. cbn [filter]. rewrite He, N.eqb_refl. cbn [negb].
  assert (F : forall c, (forall y, In y c -> ent_src y <> src) -> filter (fun e => negb (ent_src e =? src)) c = c).
  { clear. induction c as [|y c IH]; intros H; cbn [filter]; auto. pose proof (H y (or_introl eq_refl)) as Hy. apply N.eqb_neq in Hy. rewrite Hy. cbn [negb]. f_equal. apply IH. intros z Hz. apply H. right. auto. }
  rewrite !F; auto.
Qed.
Lemma remove_none : forall f src, (forall y, In y f -> ent_src y <> src) -> frame_remove f src = f.
Proof.
  induction f as [|y c IH]; intros src H; cbn [frame_remove filter]; auto. pose proof (H y (or_introl eq_refl)) as Hy. apply N.eqb_neq in Hy. unfold frame_remove. cbn [filter]. rewrite Hy. cbn [negb]. f_equal. apply IH. intros z Hz. apply H. right. auto.
Qed.
Lemma set_mid : forall c1 e c2 src fp dst, ent_src e = src -> (forall y, In y c1 -> ent_src y <> src) -> (forall y, In y c2 -> ent_src y <> src) ->
  frame_set (c1 ++ e :: c2) src fp dst = c1 ++ (ent_src e, ent_fp e, dst) :: c2.
Proof.
  intros c1 e c2 src fp dst He H1 H2. unfold frame_set.
  replace (existsb _ _) with true.
  2:{ symmetry. apply existsb_exists. exists e. split; [apply in_elt|]. apply N.eqb_eq. auto. }
  rewrite map_app. cbn [map]. rewrite He, N.eqb_refl.
  assert (F : forall c, (forall y, In y c -> ent_src y <> src) -> map (fun e => if ent_src e =? src then (ent_src e, ent_fp e, dst) else e) c = c).
  { clear. induction c as [|y c IH]; intros H; cbn [map]; auto. pose proof (H y (or_introl eq_refl)) as Hy. apply N.eqb_neq in Hy. rewrite Hy. f_equal. apply IH. intros z Hz. apply H. right. auto. }
  rewrite !F; auto.
Qed.
Lemma set_new : forall f src fp dst, (forall y, In y f -> ent_src y <> src) -> frame_set f src fp dst = (src, fp, dst) :: f.
Proof.
  intros f src fp dst H. unfold frame_set. destruct (existsb _ f) eqn:E; auto. apply existsb_exists in E. destruct E as (e & A & B). apply N.eqb_eq in B. exfalso. apply (H e); auto.
Qed.

Lemma al_find : forall l A x, Forall2 al l A -> In x l -> exists a, In a A /\ al x a.
Proof. intros l A x F. induction F; intros H1; [destruct H1|]. destruct H1 as [<-|H1]; [exists y; split; auto; left; auto|]. destruct (IHF H1) as (a & P & Q). exists a. split; auto. right. auto. Qed.
Lemma al_find' : forall l A a, Forall2 al l A -> In a A -> exists x, In x l /\ al x a.
Proof. intros l A x F. induction F; intros H1; [destruct H1|]. destruct H1 as [<-|H1]; [exists x0; split; auto; left; auto|]. destruct (IHF H1) as (a & P & Q). exists a. split; auto. right. auto. Qed.

(** position of a stub of the innermost scope *)
Lemma locate : forall l1 sc t l2 f fs, Forall2 al (l1 ++ (sc, t) :: l2) (ann (f :: fs)) -> sc = N.of_nat (length fs) ->
  exists c1 e c2, f = c1 ++ e :: c2 /\ length l1 = length c1 /\ ent_src e = t_src t /\ ent_fp e = t_source t /\
    ann (f :: fs) = map (pair sc) c1 ++ (sc, e) :: map (pair sc) c2 ++ ann fs /\
    Forall2 al l1 (map (pair sc) c1).
Proof.
  intros l1 sc t l2 f fs F Hsc. destruct (Forall2_split _ _ _ _ F) as (a1 & a & a2 & E & L & (A1 & A2 & A3) & F1 & F2). cbn [fst snd] in *.
  assert (Hd : fst a = N.of_nat (length fs)) by congruence.
  cbn [ann] in E. destruct (split_frame _ _ _ _ _ _ (ann_scope fs) E Hd) as (c1 & c2 & X & Y & Z).
  exists c1, (snd a), c2. repeat split; auto.
  - rewrite L, Y, map_length. auto.
  - cbn [ann]. rewrite X, map_app. cbn [map]. rewrite <- app_assoc, Hsc. auto.
  - rewrite <- Hsc in Y. rewrite <- Y. auto.
Qed.

Lemma before_other : forall l1 sc c1 e c2 t, Forall2 al l1 (map (pair sc) c1) -> NoDup (map ent_fp (c1 ++ e :: c2)) -> ent_fp e = t_source t ->
  forall y, In y l1 -> t_source (snd y) <> t_source t.
Proof.
  intros l1 sc c1 e c2 t F H E y Hy. destruct (al_find _ _ _ F Hy) as (a & A & (_ & _ & B)). apply in_map_iff in A. destruct A as (e' & <- & He').
  cbn [snd] in B. rewrite B, <- E. destruct (NoDup_mid _ _ _ _ _ _ H) as [N _]. apply N. auto.
Qed.

Definition all_good (fs : list frame) : Prop := Forall good fs.

Lemma close_loop : forall n f fs m st, (length f <= n)%nat -> good f -> NI m (ann (f :: fs)) st ->
  NI m (ann fs) (clear_loop n st (N.of_nat (length fs))).
Proof.
  induction n as [|n IH]; intros f fs m st L G I.
  - destruct f; [|cbn in L; lia]. cbn in *. auto.
  - cbn [clear_loop]. destruct (take _ (stubs st)) as [[t r]|] eqn:T.
    + apply take_spec in T. destruct T as (l1 & sc & l2 & A & -> & B & C). cbn [fst] in B. apply N.eqb_eq in B.
      pose proof (NI_al _ _ _ I) as F. rewrite A in F. destruct (locate _ _ _ _ _ _ F B) as (c1 & e & c2 & X & Y & Z & W & V & U).
      assert (c1 = []).
      { destruct c1 as [|e1 c1]; auto. destruct l1 as [|y l1]; [discriminate|]. exfalso.
        pose proof (C y (or_introl eq_refl)) as Cy. inversion U; subst. destruct H2 as (Q & _). cbn [fst] in Q. rewrite Q, N.eqb_refl in Cy. discriminate. }
      subst c1. destruct l1; [|discriminate]. cbn [app] in *. subst f.
      apply (IH c2).
      * cbn [length] in L. lia.
      * destruct G as [G1 G2]. inversion G1; inversion G2; subst. split; auto.
      * assert (V2 : ann (c2 :: fs) = map (pair sc) c2 ++ ann fs) by (rewrite B; reflexivity). rewrite V2. cbn [map app] in V.
        apply (delete_NI m [] (sc, e) (map (pair sc) c2 ++ ann fs) (code st) (sources st) [] sc t l2); auto.
        cbn [app]. rewrite <- A. assert (I2 : NI m ((sc, e) :: map (pair sc) c2 ++ ann fs) st) by (rewrite <- V; exact I). destruct st; auto.
    + destruct f as [|e f]; [cbn in I; auto|]. exfalso. pose proof (NI_al _ _ _ I) as F. cbn [ann map app] in F. inversion F as [|x ? ? ? Hal Hrest Hst]; subst.
      pose proof (take_none _ _ T x) as N. rewrite <- Hst in N. specialize (N (or_introl eq_refl)). destruct Hal as (Q & _). cbn [fst] in Q. rewrite Q, N.eqb_refl in N. discriminate.
Qed.

Lemma add_NI : forall m f fs st src dst, NI m (ann (f :: fs)) st -> good f ->
  allowed st (Add (N.of_nat (length fs)) src dst) -> no_alias f src (follow st src) ->
  NI m (ann (frame_set f src (follow st src) dst :: fs)) (stub_add st (N.of_nat (length fs)) src dst) /\ good (frame_set f src (follow st src) dst).
Proof.
  intros m f fs st src dst I G Al Na. set (d := N.of_nat (length fs)) in *.
  pose proof (add_inv m st d src dst (NI_inv _ _ _ I) Al) as I'. unfold stub_add in *.
  destruct Al as (Hd & Hf & Ap).
  pose proof (stubs_get_spec st d src) as S. destruct (stubs_get st d src) as [t|].
  - destruct S as [S1 S2]. apply in_split in S1. destruct S1 as (l1 & l2 & A).
    pose proof (NI_al _ _ _ I) as F. rewrite A in F. destruct (locate _ _ _ _ _ _ F eq_refl) as (c1 & e & c2 & X & Y & Z & W & V & U).
    destruct G as [G1 G2]. rewrite X in G1, G2. destruct (NoDup_mid _ _ _ _ _ _ G1) as (M1 & M2 & M3). rewrite Z, S2 in M1, M2.
    rewrite X. rewrite (set_mid c1 e c2 src _ dst) by (auto; congruence). split.
    + constructor; auto; cbn [stubs code sources].
      * cbn [ann]. rewrite map_app. cbn [map]. rewrite <- app_assoc. cbn [app].
        rewrite A. pose proof (NI_al _ _ _ I) as F'. rewrite A, V in F'. clear -F' Y. revert F' Y. generalize c1. clear c1. induction l1 as [|x l1 IH]; intros [|a a1] F' L; try discriminate; cbn [map app] in *.
        -- inversion F'; subst. constructor; auto.
        -- inversion F'; subst. constructor; auto.
      * apply (NI_lim _ _ _ I).
      * intros fp Hfp. pose proof (NI_chain _ _ _ I fp Hfp) as C. rewrite A, V in C. rewrite A.
        cbn [ann]. rewrite map_app. cbn [map]. rewrite <- app_assoc. cbn [app].
        assert (L1 : length l1 = length (map (pair d) c1)) by (rewrite map_length; auto).
        destruct (N.eq_dec (t_source t) fp) as [E|E].
        -- subst fp. assert (B : forall y, In y l1 -> t_source (snd y) <> t_source t) by (apply (before_other l1 d c1 e c2 t); auto).
           rewrite chain_skip in C |- * by auto. cbn [chain snd] in *. rewrite N.eqb_refl in *. destruct C as [_ C]. split; auto.
           assert (Lim : t_source t < 2 ^ 64) by (apply (NI_lim _ _ _ I d); rewrite A; apply in_elt).
           exact (jump_reaches (code st) (t_source t) dst Lim Hd).
        -- apply chain_other with (a := (d, e)); auto. unfold e9_set. rewrite get_put_other; auto; [apply e9_code_length|].
           apply (Inv_apart_fp m st); auto; [apply (NI_inv _ _ _ I)|]. apply (I_stub _ _ (NI_inv _ _ _ I) d). rewrite A. apply in_elt.
    + split; [rewrite map_app in *; cbn [map ent_src fst] in *; auto|]. rewrite map_app in *. cbn [map] in *. exact G2.
  - assert (Fr : forall y, In y f -> ent_src y <> src).
    { intros y Hy Ey. assert (Ha : In (d, y) (ann (f :: fs))) by (cbn [ann]; apply in_or_app; left; apply in_map_iff; exists y; auto).
      destruct (al_find' _ _ _ (NI_al _ _ _ I) Ha) as ([sc t] & T & (E1 & E2 & E3)). cbn [fst snd] in *. subst sc. apply (S _ T). congruence. }
    rewrite set_new by auto. unfold source_add in *. set (sfp := follow st src) in *. cbn [code sources stubs] in *.
    set (l := match find_source st sfp with Some _ => sources st | None => mksource sfp (e9_save (code st) sfp) 0 :: sources st end) in *.
    assert (Hl : forall fp, In fp (map s_fp l) -> fp = sfp \/ In fp (map s_fp (sources st))).
    { unfold l. destruct (find_source st sfp); auto. cbn. intros fp [H|H]; auto. }
    split.
    + constructor; auto; cbn [stubs code sources].
      * cbn [ann map app]. constructor; [|apply (NI_al _ _ _ I)]. repeat split.
      * intros sc t [E|H]; [injection E as <- <-; auto|]. apply (NI_lim _ _ _ I _ _ H).
      * intros fp. rewrite set_ref_fps. intro Hfp. cbn [ann map app chain snd t_source t_saved].
        destruct (N.eqb_spec sfp fp) as [<-|N].
        -- split; [exact (jump_reaches (code st) sfp dst Hf Hd)|]. change (chain m sfp (get (code st) sfp 12) (stubs st) (ann (f :: fs))).
           pose proof (find_source_spec st sfp) as Fs. destruct (find_source st sfp) as [s|].
           ++ apply (NI_chain _ _ _ I). destruct Fs as [Fs1 <-]. apply in_map. auto.
           ++ apply chain_none; [eapply F2_length; apply (NI_al _ _ _ I)| |].
              ** intros [sc t] Hy E. apply Fs. rewrite <- E. apply (I_stub _ _ (NI_inv _ _ _ I) _ _ Hy).
              ** apply get_ext. intros i Hi. apply (I_code _ _ (NI_inv _ _ _ I)). intros s Hs Hp.
                 assert (Hst : stubbed st (s_fp s)) by (apply (in_source_stubbed m st); [apply (NI_inv _ _ _ I)|apply in_map; auto]).
                 destruct (Ap _ Hst) as [E|E]; [apply Fs; rewrite <- E; apply in_map; auto|]. unfold prefix in Hp. lia.
        -- destruct (Hl _ Hfp) as [E|H]; [congruence|]. pose proof (NI_chain _ _ _ I _ H) as C.
           unfold e9_set. rewrite get_put_other; auto; [apply e9_code_length|].
           assert (Hst : stubbed st fp) by (apply (in_source_stubbed m st); [apply (NI_inv _ _ _ I)|auto]).
           pose proof (Ap _ Hst). unfold apart in *. lia.
    + destruct G as [G1 G2]. split; cbn [map ent_src ent_fp fst snd]; constructor; auto.
      * intro H. apply in_map_iff in H. destruct H as (y & A & B). apply (Fr y); auto.
      * intro H. apply in_map_iff in H. destruct H as (y & A & B). apply (Fr y); auto.
Qed.

Lemma nested_NI : forall m fs st, nested m fs st -> NI m (ann fs) st /\ all_good fs.
Proof.
  intros m fs st H. induction H as [|fs st H [IH G]|f fs st H [IH G]|f fs st src dst H [IH G] Al Na|f fs st src H [IH G]].
  - split; [|constructor]. constructor; cbn; auto; try contradiction. apply (reach_inv m). constructor.
  - split; [exact IH|]. constructor; auto. split; constructor.
  - inversion G; subst. split; auto. cbn [step]. unfold stub_clear_all. apply close_loop with (f := f); auto.
    rewrite (F2_length _ _ _ _ _ (NI_al _ _ _ IH)). cbn [ann]. rewrite app_length, map_length. lia.
  - inversion G; subst. destruct (add_NI m f fs st src dst IH H2 Al Na) as [A B]. split; auto. constructor; auto.
  - inversion G as [|? ? Gf Gr]; subst. cbn [step]. unfold stub_clear. destruct (take _ (stubs st)) as [[t r]|] eqn:T.
    + apply take_spec in T. destruct T as (l1 & sc & l2 & A & -> & B & C). unfold is_stub in B. cbn [fst snd] in B. apply andb_true_iff in B.
      destruct B as [B1 B2]. apply N.eqb_eq in B1, B2. pose proof (NI_al _ _ _ IH) as F. rewrite A in F.
      destruct (locate _ _ _ _ _ _ F B1) as (c1 & e & c2 & X & Y & Z & W & V & U).
      pose proof Gf as [G1 G2]. rewrite X in G1, G2. destruct (NoDup_mid _ _ _ _ _ _ G1) as (M1 & M2 & M3). destruct (NoDup_mid _ _ _ _ _ _ G2) as (_ & _ & M6).
      rewrite Z, B2 in M1, M2. rewrite X. rewrite (remove_mid c1 e c2 src) by (auto; congruence). split.
      * assert (V2 : ann ((c1 ++ c2) :: fs) = map (pair sc) c1 ++ map (pair sc) c2 ++ ann fs) by (rewrite B1; cbn [ann]; rewrite map_app, <- app_assoc; reflexivity). unfold frame in *. rewrite V2.
        apply delete_NI with (a := (sc, e)) (sc := sc).
        -- rewrite <- V. rewrite <- A. destruct st; auto.
        -- rewrite map_length. auto.
        -- apply (before_other l1 sc c1 e c2 t); auto.
      * constructor; auto. split; auto.
    + assert (Fr : forall y, In y f -> ent_src y <> src).
      { intros y Hy Ey. set (d := N.of_nat (length fs)) in *. assert (Ha : In (d, y) (ann (f :: fs))) by (cbn [ann]; apply in_or_app; left; apply in_map_iff; exists y; auto).
        destruct (al_find' _ _ _ (NI_al _ _ _ IH) Ha) as ([sc t] & P & (E1 & E2 & E3)). cbn [fst snd] in *. subst sc.
        pose proof (take_none _ _ T _ P) as N. unfold is_stub in N. cbn [fst snd] in N. rewrite E2, Ey, !N.eqb_refl in N. discriminate. }
      rewrite remove_none by auto. auto.
Qed.

Lemma chain_first : forall m fp l A cur, Forall2 al l A -> chain m fp cur l A ->
  match find (fun e => ent_fp e =? fp) (map snd A) with
  | Some e => x86_jump fp cur = Some (ent_dst e)
  | None => cur = get m fp 12
  end.
Proof.
  intros m fp l A cur F. revert cur. induction F as [|x a l A (_ & _ & E) F IH]; intros cur C; cbn [chain map find] in *; auto.
  rewrite E in C. destruct (ent_fp (snd a) =? fp); [apply C|]. apply IH. auto.
Qed.

Lemma newest_in_force : forall m fs st, nested m fs st ->
  (forall fp dst, in_force fs fp = Some dst -> jumps_to (code st) fp dst) /\
  (forall x, (forall fp, in_force fs fp <> None -> ~ prefix fp x) -> code st x = m x).
Proof.
  intros m fs st H. destruct (nested_NI m fs st H) as [I _].
  assert (Q : forall fp, In fp (map s_fp (sources st)) <-> in_force fs fp <> None).
  { intro fp. rewrite (in_source_stubbed m st) by apply (NI_inv _ _ _ I). unfold in_force. rewrite <- ann_concat. split.
    - intros (sc & t & T & <-). destruct (al_find _ _ _ (NI_al _ _ _ I) T) as (a & A & (_ & _ & E)). cbn [snd] in E.
      destruct (find _ _) eqn:Fd; [discriminate|]. pose proof (find_none _ _ Fd (snd a) (in_map snd _ _ A)) as N. cbn in N. rewrite E, N.eqb_refl in N. discriminate.
    - destruct (find _ _) as [e|] eqn:Fd; [|cbn; congruence]. intros _. apply find_some in Fd. destruct Fd as [A B]. apply N.eqb_eq in B.
      apply in_map_iff in A. destruct A as (a & <- & A). destruct (al_find' _ _ _ (NI_al _ _ _ I) A) as ([sc t] & T & (_ & _ & E)). cbn [snd] in E.
      exists sc, t. split; auto. congruence. }
  split.
  - intros fp dst E. assert (Hin : In fp (map s_fp (sources st))) by (apply Q; congruence).
    pose proof (chain_first _ _ _ _ _ (NI_al _ _ _ I) (NI_chain _ _ _ I _ Hin)) as C. rewrite ann_concat in C. unfold in_force in E.
    destruct (find _ _) as [e|]; [|discriminate]. cbn in E. injection E as <-. exact C.
  - intros x Hn. apply (I_code _ _ (NI_inv _ _ _ I)). intros s Hs. apply Hn. apply Q. apply in_map. auto.
Qed.

Lemma nested_reach : forall m fs st, nested m fs st -> reach m st.
Proof.
  intros m fs st H. induction H; auto; try (apply r_step; auto; exact Logic.I). constructor.
Qed.

(** *** which function a name means *)
Lemma get4 : forall m a, signed 32 (unle (get m a 4)) = s32 (m a) (m (a + 1)) (m (a + 2)) (m (a + 3)).
Proof.
  intros. unfold signed, s32, get. cbn [map seq unle]. cbn [N.of_nat Pos.of_succ_nat Pos.succ]. rewrite N.add_0_r.
  replace (m a + 256 * (m (a + 1) + 256 * (m (a + 2) + 256 * (m (a + 3) + 256 * 0))))
    with (m a + 256 * m (a + 1) + 65536 * m (a + 2) + 16777216 * m (a + 3)) by lia.
  reflexivity.
Qed.
Lemma get1 : forall m a, signed 8 (unle (get m a 1)) = s8 (m a).
Proof.
  intros. unfold signed, s8, get. cbn [map seq unle]. cbn [N.of_nat].
  replace (a + 0) with a by lia. replace (m a + 256 * 0) with (m a) by lia. reflexivity.
Qed.
Lemma get8 : forall m a, unle (get m a 8) = quad m a.
Proof.
  intros. unfold quad, get. cbn [map seq unle]. cbn [N.of_nat Pos.of_succ_nat Pos.succ]. rewrite N.add_0_r. lia.
Qed.
Lemma plus_assoc1 : forall p a b, p + a + b = p + (a + b). Proof. intros; lia. Qed.
Lemma follow_hop : forall m p, hop m p (follow_jmp1 m p).
Proof.
  intros m p. unfold follow_jmp1. destruct (N.eqb_spec (m p) 0xE9) as [E|E].
  - unfold follow_JMP32REL, ptr_add. rewrite get4, !plus_assoc1, Z.add_assoc. apply hop_rel32. auto.
  - destruct (N.eqb_spec (m p) 0xEB) as [E1|E1].
    + unfold follow_JMP8REL, ptr_add. rewrite get1, Z.add_assoc. apply hop_rel8. auto.
    + assert (J : forall q, follow_JMP32ABS m q = quad m (wrap (Z.of_N q + 6 + s32 (m (q + 2)) (m (q + 3)) (m (q + 4)) (m (q + 5))))).
      { intro q. unfold follow_JMP32ABS, ptr_add, wrap. rewrite get8, get4, !plus_assoc1, (Z.add_comm _ 6), Z.add_assoc. reflexivity. }
      destruct ((m p =? 0xFF) && (m (p + 1) =? 0x25)) eqn:E2.
      * apply andb_true_iff in E2. destruct E2 as [A B]. apply N.eqb_eq in A, B. rewrite J. apply hop_abs; auto.
      * destruct ((m p =? 0x48) && (m (p + 1) =? 0xFF) && (m (p + 2) =? 0x25)) eqn:E3.
        -- apply andb_true_iff in E3. destruct E3 as [A B]. apply andb_true_iff in A. destruct A as [A C]. apply N.eqb_eq in A, B, C. rewrite J.
           replace (Z.of_N (p + 1) + 6)%Z with (Z.of_N p + 7)%Z by lia. rewrite <- !N.add_assoc.
           change (1 + 2) with 3. change (1 + 3) with 4. change (1 + 4) with 5. change (1 + 5) with 6. apply hop_rex; auto.
        -- apply hop_stay; auto.
           ++ intros [A B]. rewrite A, B in E2. discriminate.
           ++ intros (A & B & C). rewrite A, B, C in E3. discriminate.
Qed.
Lemma which_function : forall m st src, reach m st ->
  (stubbed st src -> follow st src = src) /\ (~ stubbed st src -> hop (code st) src (follow st src)).
Proof.
  intros m st src H. pose proof (reach_inv m st H) as I. pose proof (in_source_stubbed m st src I) as Q. unfold follow.
  pose proof (find_source_spec st src) as F. destruct (find_source st src) as [s|].
  - split; auto. intro Ns. exfalso. apply Ns. apply Q. destruct F as [F1 F2]. rewrite <- F2. apply in_fps; auto.
  - split.
    + intro Sb. exfalso. apply Q in Sb. auto.
    + intros _. apply follow_hop.
Qed.
Lemma add_takes_effect : forall m st scope src dst, reach m st -> allowed st (Add scope src dst) -> stubs_get st scope src = None ->
  jumps_to (code (step st (Add scope src dst))) (follow st src) dst.
Proof.
  intros m st scope src dst H A G. cbn [step]. unfold stub_add. rewrite G. unfold source_add. cbn [code]. destruct A as (A1 & A2 & _).
  apply jump_reaches; auto.
Qed.
