(** Proofs about the list macros: emptiness, the first and the other values, and the number of values. *)
From Coq Require Import List NArith Bool Arith Lia DecimalString.
From Verif Require Import Base MacroModel MacroProofs MacroProofs2 MacroProofs3.
Import ListNotations.
Local Open Scope N_scope.
Local Arguments lookup : simpl never.
Local Arguments bytes_eqb : simpl never.

Definition number (n : nat) : tok := TNum (str (NilEmpty.string_of_uint (Nat.to_uint n))).
Definition call (s : list stok) (n : bytes) : list stok := R (TId n false) :: R TLp :: s ++ [R TRp].
Definition called (n : bytes) (s : list tok) : list tok := TId n false :: TLp :: s ++ [TRp].
Lemma flat_call : forall v n s, flat v (call s n) = called n (flat v s).
Proof. intros. unfold call, called. change (TId n false :: TLp :: flat v (s ++ [R TRp]) = TId n false :: TLp :: flat v s ++ [TRp]). rewrite flat_app. reflexivity. Qed.

(** *** the number of commas of a text with unknown parts: 5 is a list of values *)
Definition kinds (k : nat) : cls := match k with 0%nat => Plain | 1%nat | 5%nat | 6%nat => Inn | _ => Loose end.
Definition comma_name : bytes := Eval vm_compute in str "H2PP_COMMA".
Fixpoint s_count (d : nat) (p : list stok) : option (nat * nat) :=
  match p with
  | [] => match d with Datatypes.O => Some (0%nat, 0%nat) | _ => None end
  | O k :: r =>
    match kinds k, d with
    | Inn, Datatypes.O => if Nat.eqb k 5 then match s_count d r with Some (a, m) => Some (a, S m) | None => None end else None
    | _, _ => s_count d r
    end
  | R t :: r =>
    match t with
    | TLp => s_count (S d) r
    | TRp => match d with Datatypes.O => None | S e => s_count e r end
    | TComma => match d with Datatypes.O => match s_count d r with Some (a, m) => Some (S a, m) | None => None end | _ => s_count d r end
    | TId n false => match find n with Some _ => if bytes_eqb n comma_name then s_count d r else None | None => s_count d r end
    | _ => s_count d r
    end
  end.

Lemma walk_up : forall c p d e f, walk c d p = Some e -> (c = true \/ 0 < f)%nat -> walk c (f + d) p = Some (f + e)%nat \/ c = false.
Proof.
  intros [|] p; [|right; reflexivity]. induction p as [|t p IH]; intros d e f H G; [cbn in H |- *; injection H as ->; left; reflexivity|].
  left. destruct t; cbn in H |- *; try (destruct (IH _ _ f H G) as [K|K]; [exact K|discriminate]).
  - destruct (IH _ _ f H G) as [K|K]; [|discriminate]. rewrite Nat.add_succ_r in K. exact K.
  - destruct d; [discriminate|]. rewrite Nat.add_succ_r. destruct (IH _ _ f H G) as [K|K]; [exact K|discriminate].
  - destruct d; destruct f; cbn [plus]; try (destruct (IH _ _ 0%nat H (or_introl eq_refl)) as [K|K]; [exact K|discriminate]);
      destruct (IH _ _ (S f) H G) as [K|K]; try discriminate; exact K.
Qed.
Lemma walk_up_true : forall p e f, walk true 0 p = Some e -> walk true f p = Some (f + e)%nat.
Proof. intros p e f H. destruct (walk_up true p 0 e f H (or_introl eq_refl)) as [K|K]; [|discriminate]. rewrite Nat.add_0_r in K. exact K. Qed.
Lemma ncommas_deep : forall p d e f, walk true d p = Some e -> ncommas (S f + d) p = 0%nat.
Proof.
  induction p as [|t p IH]; intros d e f H; [reflexivity|]. destruct t; cbn in H |- *; try (apply (IH _ _ _ H)).
  - rewrite <- (IH _ _ f H). f_equal. cbn. lia.
  - destruct d; [discriminate|]. rewrite Nat.add_succ_r. apply (IH _ _ _ H).
  - destruct d; apply (IH _ _ _ H).
Qed.
Lemma ncommas_value : forall p d e, walk false d p = Some e -> ncommas d p = 0%nat.
Proof.
  induction p as [|t p IH]; intros d e H; [reflexivity|]. destruct t; cbn in H |- *; try (apply (IH _ _ H)).
  - destruct d; [discriminate|]. apply (IH _ _ H).
  - destruct d; [discriminate|]. apply (IH _ _ H).
Qed.

Section Count.
Variable v : nat -> list tok.
Variable more : nat.
Hypothesis v_ok : forall k, fits table (kinds k) (v k).
Hypothesis v5 : ncommas 0 (v 5%nat) = more.

Lemma part_true : forall k, walk true 0 (v k) = Some 0%nat.
Proof. intro k. destruct (v_ok k) as [_ H]. destruct (kinds k); [apply walk_true; tauto|apply walk_true; tauto|exact H]. Qed.
Lemma count_ok : forall p d a m, s_count d p = Some (a, m) ->
  walk true d (flat v p) = Some 0%nat /\ ncommas d (flat v p) = (a + m * more)%nat /\ Forall (quiet [comma_name]) (flat v p).
Proof.
  induction p as [|x p IH]; intros d a m H.
  { cbn in H. destruct d; [|discriminate]. injection H as <- <-. repeat split. constructor. }
  destruct x as [t|k].
  - change (flat v (R t :: p)) with (t :: flat v p). cbn [s_count] in H.
    assert (keep : quiet [comma_name] t -> s_count d p = Some (a, m) ->
      walk true d (flat v p) = Some 0%nat /\ ncommas d (flat v p) = (a + m * more)%nat /\ Forall (quiet [comma_name]) (t :: flat v p)).
    { intros Q E. destruct (IH _ _ _ E) as (H1 & H2 & H3). auto. }
    destruct t as [n [|]|y| | | |y]; cbn [walk ncommas]; try (apply keep; [exact I|exact H]).
    + destruct (find n) as [mc|] eqn:F.
      * destruct (bytes_eqb n comma_name) eqn:B; [|discriminate]. apply bytes_eqb_eq in B. subst n. apply keep; [right; left; reflexivity|exact H].
      * apply keep; [left; rewrite <- find_ok; exact F|exact H].
    + destruct (IH _ _ _ H) as (H1 & H2 & H3). repeat split; auto. constructor; [exact I|exact H3].
    + destruct d; [discriminate|]. destruct (IH _ _ _ H) as (H1 & H2 & H3). repeat split; auto. constructor; [exact I|exact H3].
    + destruct d.
      * destruct (s_count 0 p) as [[a' m']|] eqn:E; [|discriminate]. injection H as <- <-. destruct (IH _ _ _ E) as (H1 & H2 & H3).
        repeat split; [exact H1|rewrite H2; lia|constructor; [exact I|exact H3]].
      * apply keep; [exact I|exact H].
  - change (flat v (O k :: p)) with (v k ++ flat v p). pose proof (part_true k) as T. pose proof (walk_up_true _ _ d T) as Td. rewrite Nat.add_0_r in Td.
    rewrite (walk_app _ _ _ _ _ Td), (ncommas_app _ _ _ _ Td).
    assert (C : Forall (quiet [comma_name]) (v k)) by (apply calm_quiets; apply v_ok).
    assert (base : forall a' m', s_count d p = Some (a', m') -> walk true d (flat v p) = Some 0%nat /\ ncommas d (flat v p) = (a' + m' * more)%nat /\ Forall (quiet [comma_name]) (v k ++ flat v p)).
    { intros a' m' E. destruct (IH _ _ _ E) as (H1 & H2 & H3). repeat split; auto. apply Forall_app. auto. }
    cbn [s_count] in H. destruct d.
    + destruct (kinds k) eqn:K.
      * destruct (base _ _ H) as (H1 & H2 & H3). repeat split; auto. rewrite H2. pose proof (v_ok k) as Vk. rewrite K in Vk. destruct Vk as (_ & _ & W & _). rewrite (ncommas_value _ _ _ W). reflexivity.
      * destruct (base _ _ H) as (H1 & H2 & H3). repeat split; auto. rewrite H2. pose proof (v_ok k) as Vk. rewrite K in Vk. destruct Vk as (_ & _ & W). rewrite (ncommas_value _ _ _ W). reflexivity.
      * destruct (Nat.eqb_spec k 5) as [->|]; [|discriminate]. destruct (s_count 0 p) as [[a' m']|] eqn:E; [|discriminate]. injection H as <- <-.
        destruct (base _ _ eq_refl) as (H1 & H2 & H3). repeat split; auto. rewrite H2, v5. lia.
    + assert (E : s_count (S d) p = Some (a, m)) by (destruct (kinds k); exact H). destruct (base _ _ E) as (H1 & H2 & H3). repeat split; auto.
      rewrite H2. replace (S d) with (S d + 0)%nat by lia. rewrite (ncommas_deep _ _ _ d T). reflexivity.
Qed.
End Count.

(** *** the ends of the argument lists given to the macro that chooses *)
Definition singles (l : list tok) : list tok := flat_map (fun x => [TComma; x]) l.
Definition comma_end : list tok := Eval vm_compute in repeat (number 1) 63 ++ [number 0].
Definition count_end : list tok := Eval vm_compute in map number (rev (seq 1 64)).
Lemma pieces_singles : forall x l, Forall (fun t => exists d, t = TNum d) (x :: l) -> pieces 0 [] (x :: singles l) = map (fun t => [t]) (x :: l).
Proof.
  intros x l. revert x. induction l as [|y l IH]; intros x H; inversion H as [|? ? [d ->] Hl]; subst; [reflexivity|].
  change (pieces 0 [] (TNum d :: singles (y :: l))) with ([TNum d] :: pieces 0 [] (y :: singles l)). rewrite IH by exact Hl. reflexivity.
Qed.
Lemma comma_end_num : Forall (fun t => exists d, t = TNum d) comma_end.
Proof. unfold comma_end. repeat (constructor; [eexists; reflexivity|]). constructor. Qed.
Lemma count_end_num : Forall (fun t => exists d, t = TNum d) count_end.
Proof. unfold count_end. repeat (constructor; [eexists; reflexivity|]). constructor. Qed.
Lemma comma_end_nth : forall m, (1 <= m <= 64)%nat -> nth (64 - m) comma_end (number 0) = number (if Nat.eqb m 1 then 0 else 1).
Proof.
  intros m H. assert (F : forallb (fun m => tok_eqb (nth (64 - m) comma_end (number 0)) (number (if Nat.eqb m 1 then 0 else 1))) (seq 1 64) = true) by (vm_compute; reflexivity).
  rewrite forallb_forall in F. apply tok_eqb_eq. apply (F m). apply in_seq. lia.
Qed.
Lemma count_end_nth : forall m, (1 <= m <= 64)%nat -> nth (64 - m) count_end (number 0) = number m.
Proof.
  intros m H. assert (F : forallb (fun m => tok_eqb (nth (64 - m) count_end (number 0)) (number m)) (seq 1 64) = true) by (vm_compute; reflexivity).
  rewrite forallb_forall in F. apply tok_eqb_eq. apply (F m). apply in_seq. lia.
Qed.

Lemma nth_singles : forall (l : list tok) k d, (k < length l)%nat -> nth k (map (fun t => [t]) l) [] = [nth k l d].
Proof. induction l as [|x l IH]; intros [|k] d H; cbn in H; try lia; [reflexivity|]. cbn. apply IH. lia. Qed.
Definition th_names : list bytes := [th64; comma_name].
Lemma choose_end : forall pre tl, length tl = 64%nat -> Forall (fun t => exists d, t = TNum d) tl ->
  walk true 0 pre = Some 0%nat -> Forall (quiet [comma_name]) pre -> (ncommas 0 pre <= 63)%nat ->
  closed table th_names (called th64 (pre ++ singles tl)) [nth (63 - ncommas 0 pre) tl (number 0)].
Proof.
  intros pre tl L N W Q B. destruct tl as [|x tl]; [discriminate|].
  assert (E : pieces 0 [] (pre ++ singles (x :: tl)) = pieces 0 [] pre ++ map (fun t => [t]) (x :: tl)).
  { change (singles (x :: tl)) with (TComma :: x :: singles tl). rewrite pieces_app by exact W. rewrite pieces_singles by exact N. reflexivity. }
  pose proof (pieces_length pre 0 []) as Lp.
  assert (X : nth 64 (pieces 0 [] (pre ++ singles (x :: tl))) [] = [nth (63 - ncommas 0 pre) (x :: tl) (number 0)]).
  { rewrite E, app_nth2 by lia. rewrite Lp. replace (64 - S (ncommas 0 pre))%nat with (63 - ncommas 0 pre)%nat by lia.
    apply nth_singles. rewrite L. lia. }
  rewrite <- X. apply choose64.
  - rewrite (walk_app _ _ _ _ _ W). clear - N. induction N as [|y l [d ->] _ IH]; [reflexivity|]. exact IH.
  - apply Forall_app. split; [exact Q|]. clear - N. induction N as [|y l [d ->] _ IH]; [constructor|]. repeat (constructor; [exact I|]). exact IH.
  - rewrite (ncommas_app _ _ _ _ W). assert (K : ncommas 0 (singles (x :: tl)) = length (x :: tl)).
    { clear - N. induction N as [|y l [d ->] _ IH]; [reflexivity|]. change (ncommas 0 (singles (TNum d :: l))) with (S (ncommas 0 (singles l))). rewrite IH. reflexivity. }
    rewrite K. lia.
  - rewrite X. constructor; [|constructor]. assert (I0 : In (nth (63 - ncommas 0 pre) (x :: tl) (number 0)) (x :: tl)) by (apply nth_In; rewrite L; lia).
    rewrite Forall_forall in N. destruct (N _ I0) as [d ->]. exact I.
Qed.

(** the summary of the macro that chooses, for a list of one value, or of one more than the values of part 5 *)
Definition th_fn (a : list stok) : option (list stok) :=
  let n := (length a - 128)%nat in let pre := firstn n a in let tl := skipn n a in
  match s_count 0 pre with
  | Some (k, m) =>
    if Nat.leb k 2 && Nat.leb m 1 && Nat.leb m k then
      if stoks_eqb tl (map R (singles comma_end)) then Some [R (number (if Nat.eqb k 0 then 0 else 1))]
      else if stoks_eqb tl (map R (singles count_end)) then
        match k, m with 0%nat, 0%nat => Some [R (number 1)] | 1%nat, 1%nat => Some [O 4] | _, _ => None end
      else None
    else None
  | None => None
  end.
Lemma flat_real : forall v l, flat v (map R l) = l.
Proof. intros v. induction l as [|t l IH]; [reflexivity|]. cbn. rewrite <- IH at 2. reflexivity. Qed.
Section Choose.
Variable v : nat -> list tok.
Variable more : nat.
Hypothesis v_ok : forall k, fits table (kinds k) (v k).
Hypothesis v5 : ncommas 0 (v 5%nat) = more.
Hypothesis v4 : v 4%nat = [number (2 + more)].
Hypothesis few : (more <= 61)%nat.
Definition th_sum (n : bytes) : option (list bytes * (list stok -> option (list stok))) := if bytes_eqb n th64 then Some (th_names, th_fn) else None.
Lemma th_sum_ok : forall n un fn a res, th_sum n = Some (un, fn) -> fn a = Some res -> closed table un (TId n false :: TLp :: flat v a ++ [TRp]) (flat v res).
Proof.
  intros n un fn a res H E. unfold th_sum in H. destruct (bytes_eqb n th64) eqn:B; [|discriminate]. apply bytes_eqb_eq in B. subst n. injection H as <- <-.
  unfold th_fn in E. set (k0 := (length a - 128)%nat) in *. destruct (s_count 0 (firstn k0 a)) as [[k m]|] eqn:S0; [|discriminate].
  destruct (Nat.leb k 2 && Nat.leb m 1 && Nat.leb m k) eqn:Bd; [|discriminate]. apply andb_prop in Bd. destruct Bd as [Bd B4]. apply andb_prop in Bd. destruct Bd as [B1 B2]. apply Nat.leb_le in B1, B2, B4.
  destruct (count_ok v more v_ok v5 _ _ _ _ S0) as (W & C & Q).
  assert (F : flat v a = flat v (firstn k0 a) ++ flat v (skipn k0 a)) by (rewrite <- flat_app, firstn_skipn; reflexivity).
  assert (B3 : (ncommas 0 (flat v (firstn k0 a)) <= 63)%nat) by (rewrite C; destruct m as [|[|m]]; lia).
  change (TId th64 false :: TLp :: flat v a ++ [TRp]) with (called th64 (flat v a)). rewrite F.
  destruct (stoks_eqb (skipn k0 a) (map R (singles comma_end))) eqn:T1.
  - apply stoks_eqb_eq in T1. rewrite T1, flat_real. injection E as <-.
    pose proof (choose_end (flat v (firstn k0 a)) comma_end eq_refl comma_end_num W Q B3) as P.
    replace (63 - ncommas 0 (flat v (firstn k0 a)))%nat with (64 - S (ncommas 0 (flat v (firstn k0 a))))%nat in P by lia.
    rewrite comma_end_nth in P by lia.
    assert (X : Nat.eqb (S (ncommas 0 (flat v (firstn k0 a)))) 1 = Nat.eqb k 0).
    { rewrite C. destruct k as [|k]; [|reflexivity]. destruct m; [reflexivity|lia]. }
    rewrite X in P. destruct (Nat.eqb k 0); exact P.
  - destruct (stoks_eqb (skipn k0 a) (map R (singles count_end))) eqn:T2; [|discriminate]. apply stoks_eqb_eq in T2. rewrite T2, flat_real.
    pose proof (choose_end (flat v (firstn k0 a)) count_end eq_refl count_end_num W Q B3) as P.
    replace (63 - ncommas 0 (flat v (firstn k0 a)))%nat with (64 - S (ncommas 0 (flat v (firstn k0 a))))%nat in P by lia.
    rewrite count_end_nth in P by lia. rewrite C in P.
    destruct k as [|[|k]]; destruct m as [|[|m]]; try discriminate; injection E as <-; [exact P|].
    cbn [flat flat_map flat1 app]. rewrite v4. cbn [app]. replace (S (1 + 1 * more)) with (2 + more)%nat in P by lia. exact P.
Qed.
End Choose.
