From Coq Require Import List NArith Bool Arith Lia Sorted.
From Verif Require Import Base DiffModel DiffSpec.
Import ListNotations.

Section SubseqFacts.
  Variable A : Type.

  Lemma subseq_nil_l : forall s : list A, subseq [] s.
  Proof. induction s; [apply sub_nil|apply sub_skip]; auto. Qed.

  Lemma subseq_app : forall (u s v t : list A), subseq u s -> subseq v t -> subseq (u ++ v) (s ++ t).
  Proof.
    intros u s v t H Hv. induction H; simpl; auto; [apply sub_skip|apply sub_take]; auto.
  Qed.

  Lemma subseq_app_inv : forall (s t u : list A), subseq u (s ++ t) ->
    exists u1 u2, u = u1 ++ u2 /\ subseq u1 s /\ subseq u2 t.
  Proof.
    induction s as [|a s IH]; simpl; intros t u H.
    - exists [], u. repeat split; auto. constructor.
    - inversion H; subst.
      + destruct (IH _ _ H2) as (u1 & u2 & -> & H3 & H4). exists u1, u2. repeat split; auto. apply sub_skip; auto.
      + destruct (IH _ _ H2) as (u1 & u2 & -> & H3 & H4). exists (a :: u1), u2. repeat split; auto. apply sub_take; auto.
  Qed.

  Lemma subseq_snoc_inv : forall (s u : list A) a, subseq u (s ++ [a]) ->
    subseq u s \/ exists u', u = u' ++ [a] /\ subseq u' s.
  Proof.
    intros s u a H. apply subseq_app_inv in H. destruct H as (u1 & u2 & -> & H1 & H2).
    inversion H2; subst.
    - inversion H3; subst. left. rewrite app_nil_r. auto.
    - inversion H3; subst. right. exists u1. auto.
  Qed.

  Lemma subseq_prefix : forall (s u v : list A), subseq (u ++ v) s -> subseq u s.
  Proof.
    induction s as [|b s IH]; intros u v H; (destruct u as [|x u]; [apply subseq_nil_l|]); simpl in H.
    - inversion H.
    - inversion H; subst.
      + apply sub_skip. apply (IH (x :: u) v). auto.
      + apply sub_take. eauto.
  Qed.

  (** dropping the last element of a subsequence of s++[a] gives a subsequence of s *)
  Lemma subseq_snoc_drop : forall (s u : list A) a b, subseq (u ++ [b]) (s ++ [a]) -> subseq u s.
  Proof.
    intros s u a b H. apply subseq_snoc_inv in H. destruct H as [H|(u' & E & H)].
    - eapply subseq_prefix; eauto.
    - apply app_inj_tail in E. destruct E; subst. auto.
  Qed.

  Lemma firstn_snoc : forall (s : list A) i d, i < length s -> firstn (S i) s = firstn i s ++ [nth i s d].
  Proof.
    induction s as [|a s IH]; simpl; intros i d H; [lia|].
    destruct i; simpl; auto. f_equal. apply IH. lia.
  Qed.

  Lemma select_snoc : forall m (s : list A) b a, length m = length s ->
    select (m ++ [b]) (s ++ [a]) = select m s ++ (if b then [a] else []).
  Proof.
    induction m as [|x m IH]; destruct s as [|y s]; simpl; intros; try discriminate.
    - destruct b; reflexivity.
    - injection H as H. destruct x; simpl; rewrite IH by auto; reflexivity.
  Qed.

  (** a strictly decreasing list of 1-based positions selects exactly those elements *)
  Definition mem (l : list nat) (i : nat) : bool := existsb (fun p => Nat.eqb p i) l.

  Lemma mem_false : forall l i, (forall p, In p l -> p <> i) -> mem l i = false.
  Proof.
    induction l; simpl; intros; auto. apply orb_false_iff. split.
    - apply Nat.eqb_neq. apply H. auto.
    - apply IHl. auto.
  Qed.

  Lemma select_positions : forall n (s : list A) d ps,
    length s = n -> StronglySorted (fun a b => b < a) ps -> (forall p, In p ps -> 1 <= p <= n) ->
    select (map (mem ps) (seq 1 n)) s = map (fun p => nth (p - 1) s d) (rev ps).
  Proof.
    induction n as [|n IH]; intros s d ps Hl Hs Hp.
    - destruct s; try discriminate. destruct ps; auto. specialize (Hp n (or_introl eq_refl)). lia.
    - assert (exists s' a, s = s' ++ [a]) as (s' & a & ->).
      { destruct (@exists_last _ s) as (s' & a & E). intro E; subst; discriminate. eauto. }
      rewrite app_length in Hl. simpl in Hl.
      replace (S n) with (n + 1) by lia. rewrite seq_app. rewrite map_app. simpl map at 2.
      rewrite select_snoc by (rewrite map_length, seq_length; lia).
      replace (1 + n) with (S n) by lia.
      destruct ps as [|p ps].
      + simpl mem. simpl. rewrite app_nil_r.
        specialize (IH s' d [] ltac:(lia) Hs ltac:(intros ? [])). simpl in IH. exact IH.
      + assert (Hp1 : 1 <= p <= S n) by (apply Hp; left; auto).
        inversion Hs as [|? ? Hs' Hlt]; subst. rewrite Forall_forall in Hlt.
        destruct (Nat.eq_dec p (S n)) as [->|Hne].
        * assert (mem (S n :: ps) (S n) = true) as -> by (simpl; rewrite Nat.eqb_refl; auto).
          assert (E : map (mem (S n :: ps)) (seq 1 n) = map (mem ps) (seq 1 n)).
          { apply map_ext_in. intros i Hi. apply in_seq in Hi. simpl.
            destruct (Nat.eqb_spec (match n with 0 => 0 | _ => n end) 0); destruct i; try lia; auto;
              destruct (Nat.eqb_spec n i); try lia; auto. }
          rewrite E. rewrite (IH s' d ps); try lia; auto.
          -- simpl rev. rewrite map_app. f_equal.
             ++ apply map_ext_in. intros q Hq. apply in_rev in Hq.
                specialize (Hlt _ Hq). assert (1 <= q <= S n) by (apply Hp; right; auto).
                rewrite app_nth1 by lia. auto.
             ++ simpl. rewrite app_nth2 by lia. replace (n - 0 - length s') with 0 by lia. reflexivity.
          -- intros q Hq. specialize (Hlt _ Hq). assert (1 <= q <= S n) by (apply Hp; right; auto). lia.
        * assert (Hall : forall q, In q (p :: ps) -> 1 <= q <= n).
          { intros q [<-|Hq]; [lia|]. specialize (Hlt _ Hq). assert (1 <= q <= S n) by (apply Hp; right; auto). lia. }
          rewrite mem_false by (intros q Hq; specialize (Hall _ Hq); lia).
          rewrite app_nil_r. rewrite (IH s' d (p :: ps)); try lia; auto.
          apply map_ext_in. intros q Hq. apply in_rev in Hq. specialize (Hall _ Hq). rewrite app_nth1 by lia. auto.
  Qed.
End SubseqFacts.

Section LcsCorrect.
  Variable A : Type.
  Variable eqb : A -> A -> bool.
  Variable d : A.
  Variables s1 s2 : list A.
  Hypothesis small : (N.of_nat (Nat.min (length s1) (length s2)) < 2 ^ 24)%N.

  Let m := lcs_matrix A eqb s1 s2.
  Let c (i j : nat) : N := cell_c (at_ m i j).
  Let e (i j : nat) : bool := cell_e (at_ m i j).

  Definition cell_of (x y : A) (ul u l : cell) : cell :=
    if eqb x y then mkcell (wrap24 (cell_c ul + 1)) true
    else mkcell (if (cell_c l <? cell_c u)%N then cell_c u else cell_c l) false.

  Lemma lcs_row_nth : forall t x up left j, length up = S (length t) -> j < length t ->
    nth (S j) (left :: lcs_row A eqb x t up left) cell0 =
    cell_of x (nth j t d) (nth j up cell0) (nth (S j) up cell0) (nth j (left :: lcs_row A eqb x t up left) cell0).
  Proof.
    induction t as [|y t IH]; intros x up left j Hu Hj; [simpl in Hj; lia|].
    destruct up as [|ul [|u up]]; try discriminate.
    cbn [lcs_row]. cbn zeta. destruct j.
    - cbn [nth]. unfold cell_of. reflexivity.
    - change (nth (S (S j)) (left :: ?a :: ?l) cell0) with (nth (S j) (a :: l) cell0).
      rewrite IH; [|simpl in *; lia..]. reflexivity.
  Qed.

  Lemma lcs_row_length : forall t x up left, length up = S (length t) -> length (lcs_row A eqb x t up left) = length t.
  Proof.
    induction t as [|y t IH]; intros x up left Hu.
    - destruct up as [|? [|]]; try discriminate; reflexivity.
    - destruct up as [|ul [|u up]]; try discriminate. cbn [lcs_row]. cbn zeta. cbn [length]. f_equal. apply IH.
      simpl in *; lia.
  Qed.

  Lemma lcs_rows_nth : forall t up i, i < length t ->
    nth (S i) (up :: lcs_rows A eqb t s2 up) [] =
    cell0 :: lcs_row A eqb (nth i t d) s2 (nth i (up :: lcs_rows A eqb t s2 up) []) cell0.
  Proof.
    induction t as [|x t IH]; intros up i Hi; [simpl in Hi; lia|].
    cbn [lcs_rows]. cbn zeta. destruct i.
    - reflexivity.
    - change (nth (S (S i)) (up :: ?a :: ?l) []) with (nth (S i) (a :: l) []).
      rewrite IH by (simpl in Hi; lia). reflexivity.
  Qed.

  Lemma rows_length : forall t up i, length up = S (length s2) -> i <= length t ->
    length (nth i (up :: lcs_rows A eqb t s2 up) []) = S (length s2).
  Proof.
    induction t as [|x t IH]; intros up i Hu Hi.
    - simpl in Hi. assert (i = 0) by lia. subst. exact Hu.
    - destruct i; [exact Hu|].
      cbn [lcs_rows]. cbn zeta. change (nth (S i) (up :: ?l) []) with (nth i l []).
      apply IH; [|simpl in Hi; lia]. cbn [length]. f_equal. apply lcs_row_length. auto.
  Qed.

  Lemma at_succ : forall i j, i < length s1 -> j < length s2 ->
    at_ m (S i) (S j) = cell_of (nth i s1 d) (nth j s2 d) (at_ m i j) (at_ m i (S j)) (at_ m (S i) j).
  Proof.
    intros i j Hi Hj. unfold at_, m, lcs_matrix. cbn zeta.
    rewrite lcs_rows_nth by auto.
    rewrite lcs_row_nth; auto.
    apply rows_length; [rewrite repeat_length; auto|lia].
  Qed.

  Lemma at_0_l : forall j, at_ m 0 j = cell0.
  Proof.
    intros. unfold at_, m, lcs_matrix. cbn zeta. cbn [nth].
    change (cell0 :: repeat cell0 (length s2)) with (repeat cell0 (S (length s2))).
    generalize (S (length s2)). intro n. revert j. induction n; destruct j; simpl; auto.
  Qed.

  Lemma at_0_r : forall i, i <= length s1 -> at_ m i 0 = cell0.
  Proof.
    intros i Hi. destruct i; [apply at_0_l|]. unfold at_, m, lcs_matrix. cbn zeta.
    rewrite lcs_rows_nth by lia. reflexivity.
  Qed.

  Lemma c_bound : forall i j, i <= length s1 -> j <= length s2 -> (c i j <= N.of_nat (Nat.min i j))%N.
  Proof.
    induction i as [|i IHi]; intros j Hi Hj.
    - unfold c. rewrite at_0_l. simpl. lia.
    - induction j as [|j IHj].
      + unfold c. rewrite at_0_r by lia. simpl. lia.
      + unfold c. rewrite at_succ by lia. unfold cell_of.
        destruct (eqb _ _); cbn [cell_c].
        * unfold wrap24. fold (c i j). specialize (IHi j ltac:(lia) ltac:(lia)).
          rewrite N.mod_small; [lia|].
          change (2^24)%N with 16777216%N in *. lia.
        * fold (c i (S j)). fold (c (S i) j). specialize (IHi (S j) ltac:(lia) ltac:(lia)). specialize (IHj ltac:(lia)).
          destruct (_ <? _)%N; lia.
  Qed.

  Lemma c_succ : forall i j, i < length s1 -> j < length s2 ->
    c (S i) (S j) = (if eqb (nth i s1 d) (nth j s2 d) then c i j + 1 else N.max (c i (S j)) (c (S i) j))%N
    /\ e (S i) (S j) = eqb (nth i s1 d) (nth j s2 d).
  Proof.
    intros i j Hi Hj. unfold c at 1, e. rewrite at_succ by lia. unfold cell_of.
    destruct (eqb _ _); cbn [cell_c cell_e]; split; auto.
    - unfold wrap24. fold (c i j). pose proof (c_bound i j ltac:(lia) ltac:(lia)).
      rewrite N.mod_small; [lia|]. change (2^24)%N with 16777216%N in *. lia.
    - fold (c i (S j)). fold (c (S i) j). destruct (N.ltb_spec (c (S i) j) (c i (S j))); lia.
  Qed.

  Definition common (u v x y : list A) : Prop :=
    subseq u x /\ subseq v y /\ Forall2 (fun a b => eqb a b = true) u v.

  Lemma common_le : forall i j, i <= length s1 -> j <= length s2 ->
    forall u v, common u v (firstn i s1) (firstn j s2) -> (N.of_nat (length u) <= c i j)%N.
  Proof.
    induction i as [|i IHi]; intros j Hi Hj u v (Hu & Hv & Huv).
    - simpl in Hu. inversion Hu; subst. simpl. lia.
    - revert u v Hu Hv Huv. induction j as [|j IHj]; intros u v Hu Hv Huv.
      + simpl in Hv. inversion Hv; subst. inversion Huv; subst. simpl. lia.
      + destruct (c_succ i j ltac:(lia) ltac:(lia)) as [Ec _]. rewrite Ec. clear Ec.
        rewrite (firstn_snoc A s1 i d) in Hu by lia. rewrite (firstn_snoc A s2 j d) in Hv by lia.
        destruct (eqb (nth i s1 d) (nth j s2 d)) eqn:E.
        * destruct u as [|a0 u0] using rev_ind; [simpl; lia|]. clear IHu0.
          destruct v as [|b0 v0] using rev_ind.
          { destruct u0; inversion Huv. }
          clear IHv0.
          apply subseq_snoc_drop in Hu. apply subseq_snoc_drop in Hv.
          assert (Huv' : Forall2 (fun a b => eqb a b = true) u0 v0).
          { apply Forall2_app_inv_l in Huv. destruct Huv as (l1 & l2 & F1 & F2 & Eq).
            inversion F2; subst. inversion H3; subst. apply app_inj_tail in Eq. destruct Eq; subst. auto. }
          specialize (IHi j ltac:(lia) ltac:(lia) u0 v0 (conj Hu (conj Hv Huv'))).
          rewrite app_length. simpl. lia.
        * apply subseq_snoc_inv in Hu. destruct Hu as [Hu|(u' & -> & Hu)].
          -- assert (N.of_nat (length u) <= c i (S j))%N.
             { apply (IHi (S j) ltac:(lia) ltac:(lia) u v). repeat split; auto. rewrite (firstn_snoc A s2 j d) by lia. auto. }
             lia.
          -- apply subseq_snoc_inv in Hv. destruct Hv as [Hv|(v' & -> & Hv)].
             ++ assert (N.of_nat (length (u' ++ [nth i s1 d])) <= c (S i) j)%N.
                { apply (IHj ltac:(lia) _ v); auto. rewrite (firstn_snoc A s1 i d) by lia.
                  apply subseq_app; auto. apply sub_take, sub_nil. }
                lia.
             ++ exfalso. apply Forall2_app_inv_l in Huv. destruct Huv as (l1 & l2 & F1 & F2 & Eq).
                inversion F2; subst. inversion H3; subst. apply app_inj_tail in Eq. destruct Eq; subst. congruence.
  Qed.

  Lemma common_attained : forall i j, i <= length s1 -> j <= length s2 ->
    exists u v, common u v (firstn i s1) (firstn j s2) /\ N.of_nat (length u) = c i j.
  Proof.
    induction i as [|i IHi]; intros j Hi Hj.
    - exists [], []. split; [repeat split; try apply subseq_nil_l; constructor|].
      unfold c. rewrite at_0_l. reflexivity.
    - induction j as [|j IHj].
      + exists [], []. split; [repeat split; try apply subseq_nil_l; constructor|].
        unfold c. rewrite at_0_r by lia. reflexivity.
      + destruct (c_succ i j ltac:(lia) ltac:(lia)) as [Ec _]. rewrite Ec. clear Ec.
        destruct (eqb (nth i s1 d) (nth j s2 d)) eqn:E.
        * destruct (IHi j ltac:(lia) ltac:(lia)) as (u & v & (Hu & Hv & Huv) & Hl).
          exists (u ++ [nth i s1 d]), (v ++ [nth j s2 d]).
          rewrite (firstn_snoc A s1 i d) by lia. rewrite (firstn_snoc A s2 j d) by lia.
          split; [repeat split|].
          -- apply subseq_app; auto. apply sub_take, sub_nil.
          -- apply subseq_app; auto. apply sub_take, sub_nil.
          -- apply Forall2_app; auto.
          -- rewrite app_length. simpl. lia.
        * destruct (N.max_spec (c i (S j)) (c (S i) j)) as [[_ ->]|[_ ->]].
          -- destruct (IHj ltac:(lia)) as (u & v & (Hu & Hv & Huv) & Hl).
             exists u, v. split; auto. repeat split; auto.
             rewrite (firstn_snoc A s2 j d) by lia. rewrite <- (app_nil_r v). apply subseq_app; auto. apply subseq_nil_l.
          -- destruct (IHi (S j) ltac:(lia) ltac:(lia)) as (u & v & (Hu & Hv & Huv) & Hl).
             exists u, v. split; auto. repeat split; auto.
             rewrite (firstn_snoc A s1 i d) by lia. rewrite <- (app_nil_r u). apply subseq_app; auto. apply subseq_nil_l.
  Qed.

  Lemma c_mono_r : forall i j, i <= length s1 -> j < length s2 -> (c i j <= c i (S j))%N.
  Proof.
    intros i j Hi Hj. destruct (common_attained i j ltac:(lia) ltac:(lia)) as (u & v & (Hu & Hv & Huv) & <-).
    apply (common_le i (S j) ltac:(lia) ltac:(lia) u v). repeat split; auto.
    rewrite (firstn_snoc A s2 j d) by lia. rewrite <- (app_nil_r v). apply subseq_app; auto. apply subseq_nil_l.
  Qed.
  Lemma c_mono_l : forall i j, i < length s1 -> j <= length s2 -> (c i j <= c (S i) j)%N.
  Proof.
    intros i j Hi Hj. destruct (common_attained i j ltac:(lia) ltac:(lia)) as (u & v & (Hu & Hv & Huv) & <-).
    apply (common_le (S i) j ltac:(lia) ltac:(lia) u v). repeat split; auto.
    rewrite (firstn_snoc A s1 i d) by lia. rewrite <- (app_nil_r u). apply subseq_app; auto. apply subseq_nil_l.
  Qed.

  Definition desc (l : list nat) := StronglySorted (fun a b => b < a) l.

  Definition good (i j : nat) (ps : list (nat * nat)) : Prop :=
    N.of_nat (length ps) = c i j /\
    (forall p, In p ps -> 1 <= fst p <= i /\ 1 <= snd p <= j /\
                          eqb (nth (fst p - 1) s1 d) (nth (snd p - 1) s2 d) = true) /\
    desc (map fst ps) /\ desc (map snd ps).

  Lemma traceback_good : forall fuel i j, i <= length s1 -> j <= length s2 -> i + j < fuel ->
    exists ps, traceback fuel m i j = Some ps /\ good i j ps.
  Proof.
    induction fuel as [|fuel IH]; intros i j Hi Hj Hf; [lia|].
    cbn [traceback].
    destruct i as [|i].
    { exists []. split; auto. unfold good, c. rewrite at_0_l. repeat split; try easy; constructor. }
    destruct j as [|j].
    { exists []. split; auto. unfold good, c. rewrite at_0_r by lia. repeat split; try easy; constructor. }
    fold (c i (S j)). fold (c (S i) j). fold (c i j). fold (e (S i) (S j)).
    destruct (c_succ i j ltac:(lia) ltac:(lia)) as [Ec Ee].
    destruct (e (S i) (S j)) eqn:E.
    - cbn [orb]. rewrite <- Ee in Ec.
      destruct (IH i j ltac:(lia) ltac:(lia) ltac:(lia)) as (ps & -> & G1 & G2 & G3 & G4).
      eexists. split; [reflexivity|]. repeat split.
      + cbn [length]. rewrite Ec. lia.
      + destruct H as [<-|H]; simpl; [lia|]. apply G2 in H. lia.
      + destruct H as [<-|H]; simpl; [lia|]. apply G2 in H. lia.
      + destruct H as [<-|H]; simpl; [lia|]. apply G2 in H. lia.
      + destruct H as [<-|H]; simpl; [lia|]. apply G2 in H. lia.
      + destruct H as [<-|H]; simpl; [rewrite !Nat.sub_0_r; auto|]. apply G2 in H. tauto.
      + simpl. constructor; auto. apply Forall_forall. intros x Hx. apply in_map_iff in Hx.
        destruct Hx as (p & <- & Hp). apply G2 in Hp. lia.
      + simpl. constructor; auto. apply Forall_forall. intros x Hx. apply in_map_iff in Hx.
        destruct Hx as (p & <- & Hp). apply G2 in Hp. lia.
    - cbn [orb]. rewrite <- Ee in Ec.
      pose proof (c_mono_r i j ltac:(lia) ltac:(lia)) as M1.
      pose proof (c_mono_l i j ltac:(lia) ltac:(lia)) as M2.
      destruct ((c i (S j) <=? c i j)%N && (c (S i) j <=? c i j)%N) eqn:Ed.
      + apply andb_true_iff in Ed. destruct Ed as [Ed1 Ed2]. apply N.leb_le in Ed1, Ed2.
        destruct (IH i j ltac:(lia) ltac:(lia) ltac:(lia)) as (ps & -> & G1 & G2 & G3 & G4).
        exists ps. split; auto. split; [rewrite Ec; lia|]. split; auto.
        intros p Hp. specialize (G2 p Hp). intuition lia.
      + destruct (N.ltb_spec (c (S i) j) (c i (S j))).
        * destruct (IH i (S j) ltac:(lia) ltac:(lia) ltac:(lia)) as (ps & -> & G1 & G2 & G3 & G4).
          exists ps. split; auto. split; [rewrite Ec; lia|]. split; auto.
          intros p Hp. specialize (G2 p Hp). intuition lia.
        * destruct (IH (S i) j ltac:(lia) ltac:(lia) ltac:(lia)) as (ps & -> & G1 & G2 & G3 & G4).
          exists ps. split; auto. split; [rewrite Ec; lia|]. split; auto.
          intros p Hp. specialize (G2 p Hp). intuition lia.
  Qed.

  Lemma existsb_map : forall B C (f : B -> C) p (l : list B), existsb p (map f l) = existsb (fun b => p (f b)) l.
  Proof. induction l; simpl; intros; auto. rewrite IHl. auto. Qed.

  Theorem lcs_correct :
    exists l1 l2, lcs A eqb s1 s2 = Some (l1, l2) /\
      length l1 = length s1 /\ length l2 = length s2 /\
      Forall2 (fun a b => eqb a b = true) (select l1 s1) (select l2 s2) /\
      (forall u v, subseq u s1 -> subseq v s2 -> Forall2 (fun a b => eqb a b = true) u v ->
         length u <= length (select l1 s1)).
  Proof.
    destruct (traceback_good (S (length s1 + length s2)) (length s1) (length s2)) as (ps & E & G1 & G2 & G3 & G4); try lia.
    unfold lcs. cbn zeta. fold m. rewrite E.
    eexists _, _. split; [reflexivity|].
    rewrite !map_length, !seq_length. split; auto. split; auto.
    assert (E1 : select (map (marked_row ps) (seq 1 (length s1))) s1 = map (fun p => nth (p - 1) s1 d) (rev (map fst ps))).
    { rewrite <- select_positions with (n := length s1); auto.
      - f_equal. apply map_ext. intros. unfold marked_row, mem. rewrite existsb_map. reflexivity.
      - intros p Hp. apply in_map_iff in Hp. destruct Hp as (q & <- & Hq). apply G2 in Hq. lia. }
    assert (E2 : select (map (marked_col ps) (seq 1 (length s2))) s2 = map (fun p => nth (p - 1) s2 d) (rev (map snd ps))).
    { rewrite <- select_positions with (n := length s2); auto.
      - f_equal. apply map_ext. intros. unfold marked_col, mem. rewrite existsb_map. reflexivity.
      - intros p Hp. apply in_map_iff in Hp. destruct Hp as (q & <- & Hq). apply G2 in Hq. lia. }
    rewrite E1, E2. split.
    - rewrite <- !map_rev. rewrite !map_map.
      assert (G2' : forall p, In p (rev ps) -> eqb (nth (fst p - 1) s1 d) (nth (snd p - 1) s2 d) = true).
      { intros p Hp. apply in_rev in Hp. apply G2 in Hp. tauto. }
      clear -G2'. induction (rev ps) as [|p l IH]; simpl; constructor.
      + apply G2'. left. auto.
      + apply IH. intros. apply G2'. right. auto.
    - intros u v Hu Hv Huv. rewrite map_length, rev_length, map_length.
      pose proof (common_le (length s1) (length s2) ltac:(lia) ltac:(lia) u v) as H.
      rewrite !firstn_all in H. specialize (H (conj Hu (conj Hv Huv))). rewrite <- G1 in H. lia.
  Qed.
End LcsCorrect.

Lemma Forall2_impl' : forall A B (P Q : A -> B -> Prop), (forall a b, P a b -> Q a b) ->
  forall u v, Forall2 P u v -> Forall2 Q u v.
Proof. intros A B P Q H u v F. induction F; constructor; auto. Qed.

Lemma lcs_strings_correct : forall caseless s1 s2,
  (N.of_nat (Nat.min (List.length s1) (List.length s2)) < 2 ^ 24)%N ->
  exists l1 l2, lcs_strings caseless s1 s2 = Some (l1, l2) /\
    List.length l1 = List.length s1 /\ List.length l2 = List.length s2 /\
    Forall2 (fun a b => fold_str caseless a = fold_str caseless b) (select l1 s1) (select l2 s2) /\
    (forall u v, subseq u s1 -> subseq v s2 ->
       Forall2 (fun a b => fold_str caseless a = fold_str caseless b) u v ->
       List.length u <= List.length (select l1 s1)).
Proof.
  intros cl s1 s2 H.
  destruct (lcs_correct _ (str_equals cl) [] s1 s2 H) as (l1 & l2 & E & L1 & L2 & F & M).
  exists l1, l2. repeat split; auto.
  - revert F. apply Forall2_impl'. intros a b Hab. apply str_equals_fold. exact Hab.
  - intros u v Hu Hv Huv. apply (M u v); auto.
    revert Huv. apply Forall2_impl'. intros a b Hab. apply str_equals_fold. exact Hab.
Qed.
