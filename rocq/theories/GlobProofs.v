From Coq Require Import List NArith Bool Arith Lia.
From Verif Require Import Base GlobModel GlobSpec.
Import ListNotations.
Local Open Scope N_scope.

Lemma tolower_nz : forall c, c <> 0 -> tolower c <> 0.
Proof. intros c H. unfold tolower. destruct (_ && _); lia. Qed.

Lemma fold_char_nz : forall cl c, c <> 0 -> fold_char cl c <> 0.
Proof. intros [|] c H; simpl; auto. rewrite <- tolower_lower. apply tolower_nz; auto. Qed.

Section G.
Variable cl : bool.
Notation G := (glob cl).

Definition suffix (t s : bytes) := exists u, s = u ++ t.

Lemma suffix_refl : forall s, suffix s s.
Proof. exists []. auto. Qed.
Lemma suffix_trans : forall a b c, suffix a b -> suffix b c -> suffix a c.
Proof. intros a b c [u ->] [v ->]. exists (v ++ u). rewrite app_assoc. auto. Qed.
Lemma suffix_length : forall a b, suffix a b -> (List.length a <= List.length b)%nat.
Proof. intros a b [u ->]. rewrite app_length. lia. Qed.
Lemma suffix_cons_inv : forall t c s, suffix t (c :: s) -> t = c :: s \/ suffix t s.
Proof. intros t c s [[|x u] E]; simpl in E; [auto|]. inversion E; subst. right. exists u. auto. Qed.
Lemma suffix_cons : forall t c s, suffix t s -> suffix t (c :: s).
Proof. intros t c s [u ->]. exists (c :: u). auto. Qed.

(** of two suffixes of the same string the shorter one is a suffix of the longer *)
Lemma suffix_nested : forall s a b, suffix a s -> suffix b s -> (List.length a <= List.length b)%nat -> suffix a b.
Proof.
  induction s as [|c s IH]; intros a b Ha Hb Hl.
  - destruct Ha as [u Ea]. symmetry in Ea. apply app_eq_nil in Ea. destruct Ea; subst.
    destruct Hb as [v Eb]. symmetry in Eb. apply app_eq_nil in Eb. destruct Eb; subst. apply suffix_refl.
  - apply suffix_cons_inv in Hb. destruct Hb as [->|Hb]; auto.
    apply suffix_cons_inv in Ha. destruct Ha as [->|Ha]; auto.
    apply suffix_length in Hb. simpl in Hl. lia.
Qed.

Lemma G_star_iff : forall p s, G (42 :: p) s <-> exists t, suffix t s /\ G p t.
Proof.
  split.
  - intro H. inversion H; subst; try congruence. exists s0. split; auto. exists u. auto.
  - intros (t & [u ->] & H). apply glob_star. auto.
Qed.

Lemma G_any_iff : forall p c s, G (63 :: p) (c :: s) <-> G p s.
Proof.
  split; intro H; [inversion H; subst; auto; congruence|apply glob_any; auto].
Qed.

Lemma G_char_iff : forall a p c s, a <> 63 -> a <> 42 ->
  G (a :: p) (c :: s) <-> (fold_char cl a = fold_char cl c /\ G p s).
Proof.
  intros a p c s H1 H2. split.
  - intro H. inversion H; subst; try congruence. auto.
  - intros [E H]. apply glob_char; auto.
Qed.

Lemma G_nil_r : forall p, ~ In 0 p -> G p [] <-> gfinal p = true.
Proof.
  induction p as [|a p IH]; intros Hz; simpl.
  - split; auto. intro. apply glob_nil.
  - destruct (N.eqb_spec a 42) as [->|Hn].
    + rewrite <- IH by (intro; apply Hz; right; auto). rewrite G_star_iff. split.
      * intros (t & [u E] & H). symmetry in E. apply app_eq_nil in E. destruct E; subst. auto.
      * intro H. exists []. split; auto. apply suffix_refl.
    + assert (a <> 0) by (intro; apply Hz; left; auto).
      destruct (N.eqb_spec a 0); [contradiction|]. split; [|discriminate].
      intro H'. inversion H'; subst; congruence.
Qed.

Lemma G_nil_l : forall s, s <> [] -> ~ G [] s.
Proof. intros s H H'. inversion H'; subst. auto. Qed.

(** [q] without stars matches strings of exactly its own length *)
Definition nostar (q : bytes) := Forall (fun c => c <> 42) q.

Lemma G_prefix : forall q p t, nostar q -> G (q ++ p) t ->
  exists t1 t2, t = t1 ++ t2 /\ List.length t1 = List.length q /\ G p t2.
Proof.
  induction q as [|a q IH]; simpl; intros p t Hq H.
  - exists [], t. auto.
  - inversion Hq as [|? ? Ha Hq']; subst. inversion H; subst; try contradiction.
    + match goal with H' : G (q ++ p) _ |- _ => destruct (IH _ _ Hq' H') as (t1 & t2 & -> & E & HG) end.
      exists (c :: t1), t2. simpl. auto.
    + match goal with H' : G (q ++ p) _ |- _ => destruct (IH _ _ Hq' H') as (t1 & t2 & -> & E & HG) end.
      exists (c :: t1), t2. simpl. auto.
Qed.

(** what is still to be decided, and the relation of the saved cursors to the current ones *)
Definition pending (st : gstate) : Prop :=
  G (pcur st) (scur st) \/
  match star st with
  | None => False
  | Some (pstar, sstar) => exists t, suffix t sstar /\ (List.length t < List.length sstar)%nat /\ G (tl pstar) t
  end.

Definition ginv (P S : bytes) (st : gstate) : Prop :=
  suffix (scur st) S /\ suffix (pcur st) P /\
  match star st with
  | None => True
  | Some (pstar, sstar) =>
      suffix sstar S /\ suffix pstar P /\ pstar <> [] /\
      exists q u, tl pstar = q ++ pcur st /\ sstar = u ++ scur st /\ nostar q /\ List.length u = List.length q
  end /\ (pending st <-> G P S).

Definition measure (P S : bytes) (st : gstate) : nat :=
  let n := Datatypes.S (List.length S) in
  match star st with
  | None => (Datatypes.S (List.length P)) * (n * n) + List.length (scur st)
  | Some (pstar, sstar) => List.length pstar * (n * n) + List.length sstar * n + List.length (scur st)
  end.

Lemma suffix_tl : forall t s, t <> [] -> suffix t s -> suffix (tl t) s.
Proof.
  intros [|c t] s H [u ->]; [contradiction|]. simpl. exists (u ++ [c]). rewrite <- app_assoc. auto.
Qed.

Lemma gstep_inv : forall P S st, cstr P -> cstr S -> ginv P S st ->
  match gstep cl st with
  | GReturn b => b = true <-> G P S
  | GExit st' => st' = st /\ (gfinal (pcur st) = true <-> G P S)
  | GNext st' => ginv P S st' /\ (measure P S st' < measure P S st)%nat
  end.
Proof.
  intros P S0 [s p st] HP HS (Hs & Hp & Hst & Hpend). cbn [scur pcur star] in *.
  assert (HPz : forall x, In x p -> x <> 0).
  { intros x Hx. destruct Hp as [u ->]. unfold cstr in HP. rewrite Forall_forall in HP. apply HP.
    apply in_or_app. auto. }
  assert (HSz : forall x, In x s -> x <> 0).
  { intros x Hx. destruct Hs as [u ->]. unfold cstr in HS. rewrite Forall_forall in HS. apply HS.
    apply in_or_app. auto. }
  unfold gstep. cbn [scur pcur star].
  destruct s as [|c s]; cbn [deref hd].
  { (* subject exhausted *)
    cbn. split; auto. rewrite <- Hpend. rewrite <- G_nil_r by (intro Hi; apply (HPz _ Hi); auto).
    unfold pending. cbn [scur pcur star]. split; [auto|]. intros [H|H]; auto.
    destruct st as [[ps ss]|]; [|contradiction].
    destruct Hst as (_ & _ & _ & q & u & E1 & E2 & Hq & Hlen).
    destruct H as (t & Ht & Hlt & H). rewrite E1 in H.
    destruct (G_prefix _ _ _ Hq H) as (t1 & t2 & E & L & _). subst.
    rewrite !app_length in *. simpl in *. lia. }
  assert (Hc : c <> 0) by (apply HSz; left; auto).
  destruct (N.eqb_spec c 0) as [|_]; [contradiction|].
  assert (Hmatch : forall a p', p = a :: p' -> a <> 42 -> (G p' s <-> G p (c :: s)) ->
     ginv P S0 (mkg s p' st) /\ (measure P S0 (mkg s p' st) < measure P S0 (mkg (c :: s) p st))%nat).
  { intros a p' -> Ha HG. split.
    - unfold ginv. cbn [scur pcur star]. split; [|split; [|split]].
      + apply (suffix_tl (c :: s)); [discriminate|auto].
      + apply (suffix_tl (a :: p')); [discriminate|auto].
      + destruct st as [[ps ss]|]; auto. destruct Hst as (A1 & A2 & A3 & q & u & E1 & E2 & Hq & Hlen).
        split; auto. split; auto. split; auto. exists (q ++ [a]), (u ++ [c]).
        rewrite <- !app_assoc. simpl. split; auto. split; auto. split.
        * apply Forall_app. split; auto.
        * rewrite !app_length. simpl. lia.
      + rewrite <- Hpend. unfold pending. cbn [scur pcur star]. rewrite HG. reflexivity.
    - unfold measure. cbn [scur star]. destruct st as [[ps ss]|]; simpl; lia. }
  assert (Hfail : ~ G p (c :: s) ->
     match (match st with Some (pstar, sstar) => GNext (mkg (tl sstar) (tl pstar) (Some (pstar, tl sstar)))
                   | None => GReturn false end) with
     | GReturn b => b = true <-> G P S0
     | GExit st' => st' = mkg (c :: s) p st /\ (gfinal p = true <-> G P S0)
     | GNext st' => ginv P S0 st' /\ (measure P S0 st' < measure P S0 (mkg (c :: s) p st))%nat
     end).
  { intro Hn. destruct st as [[ps ss]|].
    - destruct Hst as (A1 & A2 & A3 & q & u & E1 & E2 & Hq & Hlen).
      assert (Hss : exists x ss', ss = x :: ss').
      { subst ss. destruct u; simpl; eauto. }
      destruct Hss as (x & ss' & Ess).
      assert (Hsuf : suffix ss' S0).
      { apply (suffix_tl ss) in A1; [|rewrite Ess; discriminate]. rewrite Ess in A1. exact A1. }
      rewrite Ess. cbn [tl]. split.
      + unfold ginv. cbn [scur pcur star]. split; auto. split; [apply suffix_tl; auto|]. split.
        * repeat split; auto. exists [], []. repeat split; auto. constructor.
        * rewrite <- Hpend. unfold pending. cbn [scur pcur star]. rewrite Ess. split.
          -- intros [H|(t & B1 & B2 & B3)]; right.
             ++ exists ss'. split; [apply suffix_cons, suffix_refl|]. simpl. split; auto.
             ++ exists t. split; [apply suffix_cons; auto|]. simpl. split; [lia|auto].
          -- intros [H|(t & B1 & B2 & B3)]; [contradiction|].
             apply suffix_cons_inv in B1. destruct B1 as [->|B1]; [lia|].
             destruct (Nat.eq_dec (List.length t) (List.length ss')) as [El|El].
             ++ left. destruct B1 as [v Ev]. subst ss'. rewrite app_length in El.
                destruct v; [auto|simpl in El; lia].
             ++ right. exists t. repeat split; auto. apply suffix_length in B1. lia.
      + unfold measure. cbn [scur star]. 
        apply suffix_length in Hsuf. cbn [List.length].
        set (n := List.length S0) in *. set (k := List.length ss') in *. nia.
    - split; [discriminate|]. intro H. apply Hpend in H. unfold pending in H. cbn in H.
      destruct H as [H|[]]. contradiction. }
  destruct p as [|a p']; cbn [deref hd].
  - (* pattern exhausted: the NUL matches nothing *)
    cbn [N.eqb]. rewrite char_eq_fold_b.
    destruct (N.eqb_spec (fold_char cl c) (fold_char cl 0)) as [E|E].
    { exfalso. apply (fold_char_nz cl c Hc). rewrite E. destruct cl; reflexivity. }
    apply Hfail. apply G_nil_l. discriminate.
  - destruct (N.eqb_spec a 63) as [->|H63].
    { cbn [tl]. apply (Hmatch 63 p'); auto. discriminate. rewrite G_any_iff. reflexivity. }
    destruct (N.eqb_spec a 42) as [->|H42].
    { cbn [tl]. clear Hmatch Hfail. split.
      - unfold ginv. cbn [scur pcur star]. split; auto.
        split; [apply (suffix_tl (42 :: p')); [discriminate|auto]|]. split.
        + split; auto. split; auto. split; [discriminate|]. exists [], []. repeat split; auto. constructor.
        + rewrite <- Hpend. unfold pending. cbn [scur pcur star tl]. rewrite G_star_iff. split.
          * intros [H|(t & B1 & B2 & B3)]; left.
            -- exists (c :: s). split; auto. apply suffix_refl.
            -- exists t. auto.
          * intros [(t & B1 & B2)|H].
            -- apply suffix_cons_inv in B1. destruct B1 as [->|B1]; [auto|]. right.
               exists t. split; [apply suffix_cons; auto|]. split; auto. apply suffix_length in B1. simpl. lia.
            -- destruct st as [[ps ss]|]; [|contradiction].
               destruct Hst as (A1 & A2 & A3 & q & u & E1 & E2 & Hq & Hlen).
               destruct H as (t & B1 & B2 & B3). rewrite E1 in B3.
               destruct (G_prefix _ _ _ Hq B3) as (t1 & t2 & E & L & B4).
               apply G_star_iff in B4. destruct B4 as (t3 & B5 & B6).
               right. exists t3.
               assert (C1 : suffix t3 ss).
               { eapply suffix_trans; [exact B5|]. eapply suffix_trans; [|exact B1]. exists t1. auto. }
               assert (C2 : (List.length t3 < List.length (c :: s))%nat).
               { apply suffix_length in B5. apply suffix_length in B1. subst. rewrite !app_length in *. lia. }
               split; [|split; auto].
               eapply suffix_nested; [exact C1| |lia]. exists u. auto.
      - assert (Ls : (List.length (c :: s) <= List.length S0)%nat) by (apply suffix_length; auto).
        assert (Lp : (List.length (42%N :: p') <= List.length P)%nat) by (apply suffix_length; auto).
        unfold measure. cbn [scur star]. set (k := List.length (c :: s)) in *.
        destruct st as [[ps ss]|].
        + destruct Hst as (A1 & A2 & A3 & q & u & E1 & E2 & Hq & Hlen).
          assert (L1 : (List.length (42%N :: p') < List.length ps)%nat).
          { destruct ps as [|x ps]; [contradiction|]. cbn [tl] in E1. subst ps. simpl. rewrite app_length. simpl. lia. }
          clearbody k. set (n := List.length S0) in *. set (l := List.length (42%N :: p')) in *.
          set (m := List.length ps) in *. clearbody n l m.
          assert (l * (Datatypes.S n * Datatypes.S n) + (Datatypes.S n * Datatypes.S n) <= m * (Datatypes.S n * Datatypes.S n))%nat by nia.
          nia.
        + clearbody k. set (n := List.length S0) in *. set (l := List.length (42%N :: p')) in *.
          set (m := List.length P) in *. clearbody n l m.
          assert (l * (Datatypes.S n * Datatypes.S n) + (Datatypes.S n * Datatypes.S n) <= Datatypes.S m * (Datatypes.S n * Datatypes.S n))%nat by nia.
          nia. }
    rewrite char_eq_fold_b. destruct (N.eqb_spec (fold_char cl c) (fold_char cl a)) as [E|E].
    + cbn [tl]. apply (Hmatch a p'); auto. rewrite G_char_iff by auto. intuition congruence.
    + apply Hfail. rewrite G_char_iff by auto. intros [E' _]. congruence.
Qed.

Lemma grun_correct : forall P S fuel st, cstr P -> cstr S -> ginv P S st -> (measure P S st < fuel)%nat ->
  exists b, grun cl fuel st = Some b /\ (b = true <-> G P S).
Proof.
  intros P S0 fuel. induction fuel as [|fuel IH]; intros st HP HS Hinv Hf; [lia|].
  pose proof (gstep_inv P S0 st HP HS Hinv) as H. cbn [grun].
  destruct (gstep cl st) as [b|st'|st'].
  - exists b. auto.
  - destruct H as [H1 H2]. apply IH; auto. lia.
  - destruct H as [-> H]. eexists. split; [reflexivity|auto].
Qed.

Lemma ginv_init : forall P S, ginv P S (mkg S P None).
Proof.
  intros. unfold ginv. cbn. repeat split; try apply suffix_refl.
  - intros [H|[]]; auto.
  - left. auto.
Qed.
End G.

Lemma wildcard_match_correct : forall cl pattern subject, cstr pattern -> cstr subject ->
  forall fuel, (S (List.length pattern) * (S (List.length subject) * S (List.length subject)) + List.length subject < fuel)%nat ->
  exists b, wildcard_match cl fuel pattern subject = Some b /\ (b = true <-> glob cl pattern subject).
Proof.
  intros cl P S0 HP HS fuel Hf. apply grun_correct; auto. apply ginv_init.
Qed.
