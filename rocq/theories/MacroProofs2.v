(** Proofs about the preprocessor: a run on texts with unknown parts stands for the runs on all texts these parts may be. *)
From Coq Require Import List NArith Bool Arith Lia.
From Verif Require Import Base MacroModel MacroProofs.
Import ListNotations.
Local Open Scope N_scope.

(** a token, or an unknown part known by a number; [Plain]: not empty, not beginning with a parenthesis, no comma outside of parentheses;
    [Loose]: it may begin with one; [Inn]: it may be empty and have commas *)
Inductive cls := Plain | Loose | Inn.
Inductive stok := R (t : tok) | O (k : nat).
Inductive sitem := ST (s : stok) | SE (m : bytes).

Fixpoint walk (commas : bool) (d : nat) (ts : list tok) : option nat :=
  match ts with
  | [] => Some d
  | TLp :: r => walk commas (S d) r
  | TRp :: r => match d with Datatypes.O => None | S e => walk commas e r end
  | TComma :: r => match d with Datatypes.O => if commas then walk commas d r else None | S _ => walk commas d r end
  | _ :: r => walk commas d r
  end.

Section Skel.
Variable tb : list (bytes * macro).
Variable lk : bytes -> option macro.
Hypothesis lk_ok : forall n, lk n = lookup tb n.
Variable kind : nat -> cls.
Variable sum : bytes -> option (list bytes * (list stok -> option (list stok))).
Variable U : list bytes.

Fixpoint s_ends (s : list sitem) : list bytes := match s with [] => [] | SE m :: r => m :: s_ends r | ST _ :: r => s_ends r end.
Definition s_disabled (n : bytes) (off : list bytes) (s : list sitem) : bool := has n off || has n (s_ends s).
Definition s_glue (a b : list stok) : option (list stok) :=
  match rev a, b with
  | [], _ => Some b
  | _, [] => Some a
  | R x :: a', R y :: b' => match paste x y with Some z => Some (rev a' ++ R z :: b') | None => None end
  | _, _ => None
  end.
Fixpoint s_actual (ps : list bytes) (args : list (list stok)) (t : tok) : option (list stok) :=
  match t, ps, args with
  | TId n _, p :: ps', a :: args' => if bytes_eqb n p then Some a else s_actual ps' args' t
  | _, _, _ => None
  end.
Definition s_place (ps : list bytes) (args : list (list stok)) (t : tok) : list stok := match s_actual ps args t with Some a => a | None => [R t] end.
Fixpoint s_substitute (ps : list bytes) (raw full : list (list stok)) (left : option (list stok)) (b : list tok) : option (list stok) :=
  match b with
  | [] => Some (match left with Some l => l | None => [] end)
  | t :: r =>
    let joined := match left with Some l => s_glue l (s_place ps raw t) | None => Some (s_place ps raw t) end in
    match r with
    | h :: r' =>
      if pasting h then match joined with Some l => s_substitute ps raw full (Some l) r' | None => None end
      else match left with
           | Some _ => match joined, s_substitute ps raw full None r with Some l, Some o => Some (l ++ o) | _, _ => None end
           | None => option_map (app (s_place ps full t)) (s_substitute ps raw full None r)
           end
    | [] => match left with Some _ => joined | None => Some (s_place ps full t) end
    end
  end.
Inductive opened := Yes (r : list sitem) | No | AtEnd | Unknown.
Fixpoint s_opening (s : list sitem) : opened :=
  match s with
  | [] => AtEnd
  | SE _ :: r => s_opening r
  | ST (R TLp) :: r => Yes r
  | ST (R _) :: _ => No
  | ST (O k) :: _ => match kind k with Plain => No | _ => Unknown end
  end.
Fixpoint s_collect (off : list bytes) (var : bool) (named depth : nat) (cur : list stok) (s : list sitem) : option (list (list stok) * list sitem) :=
  match s with
  | [] => None
  | SE _ :: r => s_collect off var named depth cur r
  | ST (O k) :: r =>
    if match kind k with Inn => match depth, named with Datatypes.O, Datatypes.O => var | Datatypes.O, S _ => false | S _, _ => true end | _ => true end
    then s_collect off var named depth (O k :: cur) r else None
  | ST (R t) :: r =>
    match t, depth with
    | TRp, Datatypes.O => Some ([rev cur], r)
    | TRp, S d => s_collect off var named d (R t :: cur) r
    | TLp, _ => s_collect off var named (S depth) (R t :: cur) r
    | TComma, Datatypes.O =>
      match named with
      | Datatypes.O => if var then s_collect off var 0 0 (R t :: cur) r
             else option_map (fun x => (rev cur :: fst x, snd x)) (s_collect off var 0 0 [] r)
      | S k => option_map (fun x => (rev cur :: fst x, snd x)) (s_collect off var k 0 [] r)
      end
    | TId n false, _ =>
      match lk n with
      | Some _ => if has n U then s_collect off var named depth (R (TId n (s_disabled n off r)) :: cur) r else None
      | None => s_collect off var named depth (R t :: cur) r
      end
    | _, _ => s_collect off var named depth (R t :: cur) r
    end
  end.
Definition s_arrange (ps : list bytes) (var : bool) (args : list (list stok)) : option (list bytes * list (list stok)) :=
  let n := length ps in let k := length args in
  if var then if Nat.eqb k (S n) then Some (ps ++ [str "__VA_ARGS__"], args)
              else if Nat.eqb k n then Some (ps ++ [str "__VA_ARGS__"], args ++ [[]]) else None
  else if Nat.eqb k n then Some (ps, args)
  else match ps, args with [], [[]] => Some ([], []) | _, _ => None end.
(** the tokens up to a closing parenthesis, when nothing ends among them *)
Fixpoint s_take (depth : nat) (cur : list stok) (s : list sitem) : option (list stok * list sitem) :=
  match s with
  | ST (R TRp) :: r => match depth with Datatypes.O => Some (rev cur, r) | S d => s_take d (R TRp :: cur) r end
  | ST (R TLp) :: r => s_take (S depth) (R TLp :: cur) r
  | ST x :: r => s_take depth (x :: cur) r
  | _ => None
  end.
Definition summary (n : bytes) (off : list bytes) (r : list sitem) : option (list stok * list sitem) :=
  match sum n, r with
  | Some (un, fn), ST (R TLp) :: r1 =>
    match s_take 0 [] r1 with
    | Some (a, r2) =>
      if forallb (fun x => negb (has x un)) (off ++ s_ends r2) then
        match fn a with Some res => Some (res, r2) | None => None end
      else None
    | None => None
    end
  | _, _ => None
  end.

Fixpoint sk (fuel : nat) (strict : bool) (off : list bytes) (s : list sitem) {struct fuel} : option (list stok) :=
  match fuel with
  | Datatypes.O => None
  | S f =>
    (fix scan (s : list sitem) : option (list stok) :=
       match s with
       | [] => Some []
       | SE _ :: r => scan r
       | ST (O k) :: r => option_map (cons (O k)) (scan r)
       | ST (R t) :: r =>
         match t with
         | TId n false =>
           match lk n with
           | None => option_map (cons (R t)) (scan r)
           | Some m =>
             if negb (has n U) then None
             else if s_disabled n off r then option_map (cons (R (TId n true))) (scan r)
             else match summary n off r with
             | Some (res, r2) => option_map (app res) (sk f strict off r2)
             | None =>
               match params m with
                  | None => match s_substitute [] [] [] None (body m) with
                            | Some b => sk f strict off (map ST b ++ SE n :: r)
                            | None => None
                            end
                  | Some ps =>
                    match s_opening r with
                    | Unknown => None
                    | AtEnd => if strict then None else option_map (cons (R t)) (scan r)
                    | No => option_map (cons (R t)) (scan r)
                    | Yes r1 =>
                      match s_collect off (variadic m) (if variadic m then length ps else Nat.pred (length ps)) 0 [] r1 with
                      | None => None
                      | Some (args, r2) =>
                        match s_arrange ps (variadic m) args with
                        | None => None
                        | Some (qs, acts) =>
                          match all_some (fun qa => if plain_use (fst qa) false (body m) then sk f false (off ++ s_ends r2) (map ST (snd qa)) else Some []) (combine qs acts) with
                          | None => None
                          | Some full =>
                            match s_substitute qs acts full None (body m) with
                            | Some b => sk f strict off (map ST b ++ SE n :: r2)
                            | None => None
                            end
                          end
                        end
                      end
                    end
                  end
             end
           end
         | _ => option_map (cons (R t)) (scan r)
         end
       end) s
  end.

Variable v : nat -> list tok.
Definition fits (c : cls) (ts : list tok) : Prop :=
  Forall (calm tb) ts /\
  match c with
  | Inn => walk true 0 ts = Some 0%nat
  | Loose => ts <> [] /\ walk false 0 ts = Some 0%nat
  | Plain => ts <> [] /\ walk false 0 ts = Some 0%nat /\ hd TRp ts <> TLp
  end.
Hypothesis v_ok : forall k, fits (kind k) (v k).

Definition flat1 (x : stok) : list tok := match x with R t => [t] | O k => v k end.
Definition flat (s : list stok) : list tok := flat_map flat1 s.
Definition flatI (s : list sitem) : list item := flat_map (fun x => match x with ST y => map Tok (flat1 y) | SE m => [End m] end) s.

(** a text that is replaced by another wherever it stands, while no macro of [un] is switched off *)
Definition closed (un : list bytes) (s s' : list tok) : Prop :=
  forall off rest out, (forall n, In n un -> has n off = false /\ has n (ends rest) = false) -> Exp tb off rest out -> Exp tb off (map Tok s ++ rest) (s' ++ out).
Hypothesis sum_U : forall n un fn x, sum n = Some (un, fn) -> In x un -> has x U = true.
Hypothesis sum_ok : forall n un fn a res, sum n = Some (un, fn) -> fn a = Some res -> closed un (TId n false :: TLp :: flat a ++ [TRp]) (flat res).

Lemma flat_app : forall a b, flat (a ++ b) = flat a ++ flat b.
Proof. intros. apply flat_map_app. Qed.
Lemma flatI_app : forall a b, flatI (a ++ b) = flatI a ++ flatI b.
Proof. intros. apply flat_map_app. Qed.
Lemma flatI_map : forall a, flatI (map ST a) = map Tok (flat a).
Proof.
  induction a as [|x a IH]; [reflexivity|]. change (flatI (map ST (x :: a))) with (map Tok (flat1 x) ++ flatI (map ST a)).
  rewrite IH, <- map_app. reflexivity.
Qed.
Lemma ends_flatI : forall s, ends (flatI s) = s_ends s.
Proof.
  induction s as [|[x|m] s IH]; [reflexivity| |].
  - change (flatI (ST x :: s)) with (map Tok (flat1 x) ++ flatI s). rewrite ends_app, ends_toks. exact IH.
  - change (flatI (SE m :: s)) with (End m :: flatI s). cbn. f_equal. exact IH.
Qed.

Lemma glue_flat : forall a b c, s_glue a b = Some c -> glue (flat a) (flat b) = Some (flat c).
Proof.
  intros a b c H. unfold s_glue in H. destruct (rev a) as [|x a'] eqn:E.
  - assert (a = []) by (rewrite <- (rev_involutive a), E; reflexivity). subst a. injection H as <-. reflexivity.
  - assert (Ea : a = rev a' ++ [x]) by (rewrite <- (rev_involutive a), E; reflexivity).
    destruct b as [|y b'].
    + assert (Some a = Some c) by (destruct x; exact H). injection H0 as <-. unfold glue. cbn. destruct (rev (flat a)) eqn:F; [|reflexivity].
      rewrite <- (rev_involutive (flat a)), F. reflexivity.
    + destruct x as [x|k]; [|discriminate]. destruct y as [y|k]; [|discriminate]. destruct (paste x y) as [z|] eqn:P; [|discriminate].
      injection H as <-. rewrite Ea, !flat_app. unfold glue. rewrite rev_app_distr. cbn. rewrite P, rev_involutive. reflexivity.
Qed.
Lemma actual_flat : forall t ps args, actual ps (map flat args) t = option_map flat (s_actual ps args t).
Proof.
  intros t. induction ps as [|p ps IH]; intros [|a args]; cbn; destruct t; try reflexivity.
  destruct (bytes_eqb n p); [reflexivity|]. apply IH.
Qed.
Lemma place_flat : forall t ps args, place ps (map flat args) t = flat (s_place ps args t).
Proof. intros. unfold place, s_place. rewrite actual_flat. destruct (s_actual ps args t); reflexivity. Qed.
Lemma substitute_flat0 : forall n b, (length b <= n)%nat -> forall ps raw full left c,
  s_substitute ps raw full left b = Some c -> substitute ps (map flat raw) (map flat full) (option_map flat left) b = Some (flat c).
Proof.
  induction n as [|n rec0]; intros [|t b] Hn ps raw full left c H.
  1,3: cbn in *; injection H as <-; destruct left; reflexivity.
  { cbn in Hn. lia. }
  assert (rec : forall b', (length b' <= length b)%nat -> forall ps raw full left c,
    s_substitute ps raw full left b' = Some c -> substitute ps (map flat raw) (map flat full) (option_map flat left) b' = Some (flat c)).
  { intros b' Hb. apply rec0. cbn in Hn. lia. }
  clear rec0 Hn.
  - cbn [s_substitute substitute] in H |- *. rewrite !place_flat.
    set (J := match left with Some l => s_glue l (s_place ps raw t) | None => Some (s_place ps raw t) end) in H.
    set (J' := match option_map flat left with Some l => glue l (flat (s_place ps raw t)) | None => Some (flat (s_place ps raw t)) end).
    assert (HJ : forall j, J = Some j -> J' = Some (flat j)).
    { intros j Hj. subst J J'. destruct left as [l|]; cbn in *; [apply glue_flat; exact Hj|congruence]. }
    destruct b as [|h b'].
    + destruct left as [l|]; cbn; [apply HJ; exact H|injection H as <-; reflexivity].
    + destruct (pasting h) eqn:Ph.
      * destruct J as [j|]; [|discriminate]. rewrite (HJ j eq_refl). exact (rec b' ltac:(cbn; lia) ps raw full (Some j) c H).
      * destruct left as [l|].
        -- cbn [option_map]. destruct J as [j|]; [|discriminate]. rewrite (HJ j eq_refl).
           destruct (s_substitute ps raw full None (h :: b')) as [o|] eqn:E; [|discriminate]. injection H as <-.
           pose proof (rec (h :: b') ltac:(lia) ps raw full None o E) as Q. cbn [option_map] in Q. rewrite Q, flat_app. reflexivity.
        -- cbn [option_map]. destruct (s_substitute ps raw full None (h :: b')) as [o|] eqn:E; [|discriminate]. injection H as <-.
           pose proof (rec (h :: b') ltac:(lia) ps raw full None o E) as Q. cbn [option_map] in Q. rewrite Q. cbn. rewrite flat_app. reflexivity.
Qed.

Lemma substitute_flat : forall b ps raw full left c,
  s_substitute ps raw full left b = Some c -> substitute ps (map flat raw) (map flat full) (option_map flat left) b = Some (flat c).
Proof. intros b. apply (substitute_flat0 (length b)). lia. Qed.

Lemma collect_part : forall off var named cm p e d d' cur r, walk cm d p = Some d' -> Forall (calm tb) p -> (cm = false \/ (named = 0%nat /\ var = true) \/ (0 < e)%nat) ->
  collect tb off var named (e + d) cur (map Tok p ++ r) = collect tb off var named (e + d') (rev p ++ cur) r.
Proof.
  intros off var named cm. induction p as [|t p IH]; intros e d d' cur r W C H.
  - cbn in W. injection W as <-. reflexivity.
  - inversion C as [|? ? Ct Cp]; subst. cbn [map app]. cbn [rev]. rewrite <- app_assoc. cbn [app].
    destruct t as [n [|]|x| | | |x]; cbn [collect].
    + apply IH; auto.
    + cbn in Ct. rewrite Ct. apply IH; auto.
    + apply IH; auto.
    + cbn in W. rewrite <- (IH e (S d)); auto. rewrite Nat.add_succ_r. reflexivity.
    + cbn in W. destruct d as [|d]; [discriminate|]. rewrite Nat.add_succ_r. rewrite <- (IH e d); auto.
    + cbn in W. destruct (e + d)%nat eqn:E.
      * assert (d = 0%nat /\ e = 0%nat) as [-> ->] by lia. destruct cm; [|discriminate]. destruct H as [H|[[-> ->]|H]]; [discriminate| |lia].
        rewrite <- (IH 0%nat 0%nat); auto.
      * rewrite <- E. apply IH; auto. destruct d; [destruct cm; [exact W|discriminate]|exact W].
    + apply IH; auto.
Qed.

Lemma disabled_flat : forall n off doff r rest, has n U = true -> (forall n, has n U = true -> has n off || has n (ends rest) = has n doff) ->
  disabled n off (flatI r ++ rest) = s_disabled n doff r.
Proof.
  intros n off doff r rest HU H. unfold disabled, s_disabled. rewrite ends_app, has_app, ends_flatI, <- (H n HU).
  destruct (has n off), (has n (ends rest)), (has n (s_ends r)); reflexivity.
Qed.

Lemma rev_flat_cons : forall x cur, rev (flat (rev (x :: cur))) = rev (flat1 x) ++ rev (flat (rev cur)).
Proof. intros. cbn [rev]. rewrite flat_app, rev_app_distr. cbn. rewrite app_nil_r. reflexivity. Qed.

Lemma collect_flat : forall off doff rest, (forall n, has n U = true -> has n off || has n (ends rest) = has n doff) ->
  forall s var named depth cur args r2, s_collect doff var named depth cur s = Some (args, r2) ->
  collect tb off var named depth (rev (flat (rev cur))) (flatI s ++ rest) = Some (map flat args, flatI r2 ++ rest).
Proof.
  intros off doff rest H. induction s as [|[x|m] s IH]; intros var named depth cur args r2 E; [discriminate| |].
  2:{ cbn in E |- *. apply IH. exact E. }
  destruct x as [t|k].
  - assert (step : forall t', rev (flat (rev (R t' :: cur))) = t' :: rev (flat (rev cur))) by (intro; rewrite rev_flat_cons; reflexivity).
    assert (comma : forall nm, option_map (fun x => (rev cur :: fst x, snd x)) (s_collect doff var nm 0 [] s) = Some (args, r2) ->
      option_map (fun x => (rev (rev (flat (rev cur))) :: fst x, snd x)) (collect tb off var nm 0 [] (flatI s ++ rest)) = Some (map flat args, flatI r2 ++ rest)).
    { intros nm F. destruct (s_collect doff var nm 0 [] s) as [[as' r']|] eqn:G; [|discriminate]. injection F as <- <-.
      specialize (IH _ _ _ _ _ _ G). cbn in IH. rewrite IH, rev_involutive. reflexivity. }
    change (flatI (ST (R t) :: s)) with (Tok t :: flatI s). cbn [app].
    destruct t as [n [|]|y| | | |y]; cbn [s_collect collect] in E |- *.
    + rewrite <- step. apply IH. exact E.
    + rewrite lk_ok in E. destruct (lookup tb n) as [m|].
      * destruct (has n U) eqn:HU; [|discriminate]. rewrite (disabled_flat n off doff s rest HU H), <- step. apply IH. exact E.
      * rewrite <- step. apply IH. exact E.
    + rewrite <- step. apply IH. exact E.
    + rewrite <- step. apply IH. exact E.
    + destruct depth as [|d].
      * injection E as <- <-. rewrite rev_involutive. reflexivity.
      * rewrite <- step. apply IH. exact E.
    + destruct depth as [|d].
      * destruct named as [|k]; [destruct var|].
        -- rewrite <- step. apply IH. exact E.
        -- apply comma. exact E.
        -- apply comma. exact E.
      * rewrite <- step. apply IH. exact E.
    + rewrite <- step. apply IH. exact E.
  - cbn [s_collect] in E. destruct (match kind k with Inn => _ | _ => true end) eqn:K; [|discriminate].
    change (flatI (ST (O k) :: s)) with (map Tok (v k) ++ flatI s). rewrite <- app_assoc.
    apply IH in E. rewrite rev_flat_cons in E. cbn [flat1] in E. rewrite <- E.
    destruct (v_ok k) as [C F]. destruct (kind k).
    + destruct F as (_ & W & _). replace depth with (depth + 0)%nat by lia. eapply collect_part; eauto.
    + destruct F as (_ & W). replace depth with (depth + 0)%nat by lia. eapply collect_part; eauto.
    + replace depth with (depth + 0)%nat at 1 2 by lia. eapply collect_part; eauto.
      destruct depth; [destruct named; [|discriminate]; subst var|]; auto. right; right. lia.
Qed.

Lemma opening_flat : forall r rest,
  match s_opening r with
  | Yes r1 => opening (flatI r ++ rest) = Some (flatI r1 ++ rest)
  | No => opening (flatI r ++ rest) = None
  | AtEnd => rest = [] -> opening (flatI r ++ rest) = None
  | Unknown => True
  end.
Proof.
  induction r as [|[x|m] r IH]; intros rest; cbn [s_opening].
  - intros ->. reflexivity.
  - destruct x as [t|k].
    + destruct t; reflexivity.
    + destruct (kind k) eqn:K; auto. destruct (v_ok k) as [C F]. rewrite K in F. destruct F as (N0 & _ & Hh).
      change (flatI (ST (O k) :: r)) with (map Tok (v k) ++ flatI r). destruct (v k) as [|t p]; [contradiction|]. cbn in *. destruct t; congruence || reflexivity.
  - cbn. apply IH.
Qed.

Lemma arrange_flat : forall ps var args qs acts, s_arrange ps var args = Some (qs, acts) -> arrange ps var (map flat args) = Some (qs, map flat acts).
Proof.
  intros ps var args qs acts H. unfold s_arrange in H. unfold arrange. rewrite map_length. destruct var.
  - destruct (Nat.eqb _ _); [injection H as <- <-; reflexivity|]. destruct (Nat.eqb _ _); [|discriminate]. injection H as <- <-. rewrite map_app. reflexivity.
  - destruct (Nat.eqb _ _); [injection H as <- <-; reflexivity|]. destruct ps; [|discriminate]. destruct args as [|[|? ?] [|? ?]]; try discriminate. injection H as <- <-. reflexivity.
Qed.

Lemma take_flat : forall s depth cur a r2, s_take depth cur s = Some (a, r2) -> rev cur ++ flat_map (fun x => match x with ST y => [y] | SE _ => [] end) s = a ++ R TRp :: flat_map (fun x => match x with ST y => [y] | SE _ => [] end) r2 /\
  flatI s = map Tok (flat (skipn (length cur) a)) ++ Tok TRp :: flatI r2 /\ firstn (length cur) a = rev cur.
Proof.
  induction s as [|[x|m] s IH]; intros depth cur a r2 E; [discriminate| |destruct depth; discriminate].
  assert (step : forall d, s_take d (x :: cur) s = Some (a, r2) -> rev cur ++ flat_map (fun x => match x with ST y => [y] | SE _ => [] end) (ST x :: s) = a ++ R TRp :: flat_map (fun x => match x with ST y => [y] | SE _ => [] end) r2 /\
    flatI (ST x :: s) = map Tok (flat (skipn (length cur) a)) ++ Tok TRp :: flatI r2 /\ firstn (length cur) a = rev cur).
  { intros d F. destruct (IH _ _ _ _ F) as (H1 & H2 & H3). cbn [rev length] in *. repeat split.
    - rewrite <- H1, <- app_assoc. reflexivity.
    - change (flatI (ST x :: s)) with (map Tok (flat1 x) ++ flatI s). rewrite H2.
      assert (Q : skipn (length cur) a = x :: skipn (S (length cur)) a).
      { rewrite <- (firstn_skipn (S (length cur)) a) at 1. rewrite H3, <- app_assoc, skipn_app, rev_length, Nat.sub_diag.
        rewrite skipn_all2 by (rewrite rev_length; lia). reflexivity. }
      rewrite Q. cbn. rewrite map_app, <- app_assoc. reflexivity.
    - assert (L : firstn (length cur) (firstn (S (length cur)) a) = rev cur).
      { rewrite H3, firstn_app, rev_length, Nat.sub_diag. cbn. rewrite app_nil_r. apply firstn_all2. rewrite rev_length. lia. }
      rewrite firstn_firstn in L. rewrite Nat.min_l in L by lia. exact L. }
  destruct x as [t|k]; [|apply (step depth); exact E]. destruct t; try (apply (step depth); exact E).
  - apply (step (S depth)). exact E.
  - cbn [s_take] in E. destruct depth as [|d]; [|apply (step d); exact E]. injection E as <- <-. repeat split.
    + rewrite skipn_all2 by (rewrite rev_length; lia). reflexivity.
    + apply firstn_all2. rewrite rev_length. lia.
Qed.

Definition s_round (f : nat) (strict : bool) (off : list bytes) : list sitem -> option (list stok) :=
    fix scan (s : list sitem) : option (list stok) :=
       match s with
       | [] => Some []
       | SE _ :: r => scan r
       | ST (O k) :: r => option_map (cons (O k)) (scan r)
       | ST (R t) :: r =>
         match t with
         | TId n false =>
           match lk n with
           | None => option_map (cons (R t)) (scan r)
           | Some m =>
             if negb (has n U) then None
             else if s_disabled n off r then option_map (cons (R (TId n true))) (scan r)
             else match summary n off r with
             | Some (res, r2) => option_map (app res) (sk f strict off r2)
             | None =>
               match params m with
                  | None => match s_substitute [] [] [] None (body m) with
                            | Some b => sk f strict off (map ST b ++ SE n :: r)
                            | None => None
                            end
                  | Some ps =>
                    match s_opening r with
                    | Unknown => None
                    | AtEnd => if strict then None else option_map (cons (R t)) (scan r)
                    | No => option_map (cons (R t)) (scan r)
                    | Yes r1 =>
                      match s_collect off (variadic m) (if variadic m then length ps else Nat.pred (length ps)) 0 [] r1 with
                      | None => None
                      | Some (args, r2) =>
                        match s_arrange ps (variadic m) args with
                        | None => None
                        | Some (qs, acts) =>
                          match all_some (fun qa => if plain_use (fst qa) false (body m) then sk f false (off ++ s_ends r2) (map ST (snd qa)) else Some []) (combine qs acts) with
                          | None => None
                          | Some full =>
                            match s_substitute qs acts full None (body m) with
                            | Some b => sk f strict off (map ST b ++ SE n :: r2)
                            | None => None
                            end
                          end
                        end
                      end
                    end
                  end
             end
           end
         | _ => option_map (cons (R t)) (scan r)
         end
       end.
Lemma sk_round : forall f strict off s, sk (S f) strict off s = s_round f strict off s.
Proof. reflexivity. Qed.

Lemma exp_part : forall p off r o, Forall (calm tb) p -> Exp tb off r o -> Exp tb off (map Tok p ++ r) (p ++ o).
Proof. induction p as [|t p IH]; intros off r o C H; [exact H|]. inversion C; subst. cbn. apply E_tok; auto. Qed.

Lemma sk_sound : forall f strict doff s out, sk f strict doff s = Some out ->
  forall off rest orest, (forall n, has n U = true -> has n off || has n (ends rest) = has n doff) -> (strict = false -> rest = []) -> Exp tb off rest orest ->
  Exp tb off (flatI s ++ rest) (flat out ++ orest).
Proof.
  induction f as [|f IHf]; intros strict doff s out E off rest orest HD HS HR; [discriminate|].
  rewrite sk_round in E. revert out E. induction s as [|x s IH]; intros out E.
  { cbn in E. injection E as <-. exact HR. }
  destruct x as [x|m]; [|cbn [flatI flat_map app]; apply E_end; apply IH; exact E].
  assert (keep : forall y, option_map (cons (R y)) (s_round f strict doff s) = Some out -> exists o, out = R y :: o /\ Exp tb off (flatI s ++ rest) (flat o ++ orest)).
  { intros y F. destruct (s_round f strict doff s) as [o|] eqn:G; [|discriminate]. injection F as <-. exists o. split; [reflexivity|]. apply IH. reflexivity. }
  destruct x as [t|k].
  2:{ cbn [s_round] in E. fold (s_round f strict doff) in E. destruct (s_round f strict doff s) as [o|] eqn:G; [|discriminate]. injection E as <-.
      change (flatI (ST (O k) :: s)) with (map Tok (v k) ++ flatI s). change (flat (O k :: o)) with (v k ++ flat o). rewrite <- !app_assoc.
      apply exp_part; [apply v_ok|]. apply IH. reflexivity. }
  change (flatI (ST (R t) :: s)) with (Tok t :: flatI s). cbn [app].
  cbn [s_round] in E. fold (s_round f strict doff) in E.
  assert (calmly : calm tb t -> option_map (cons (R t)) (s_round f strict doff s) = Some out -> Exp tb off (Tok t :: flatI s ++ rest) (flat out ++ orest)).
  { intros Ct F. apply keep in F. destruct F as (o & -> & F). cbn. apply E_tok; assumption. }
  destruct t as [n [|]|y| | | |y]; try (apply calmly; [exact I|exact E]).
  rewrite lk_ok in E. destruct (lookup tb n) as [m|] eqn:L; [|apply calmly; [exact L|exact E]].
  destruct (has n U) eqn:HU; [|discriminate]. cbn [negb] in E.
  pose proof (disabled_flat n off doff s rest HU HD) as D.
  destruct (s_disabled n doff s).
  { apply keep in E. destruct E as (o & -> & F). cbn. eapply E_blue; eauto. }
  assert (named : forall ps, params m = Some ps -> opening (flatI s ++ rest) = None -> option_map (cons (R (TId n false))) (s_round f strict doff s) = Some out ->
    Exp tb off (Tok (TId n false) :: flatI s ++ rest) (flat out ++ orest)).
  { intros ps P Op F. apply keep in F. destruct F as (o & -> & F). cbn. eapply E_name; eauto. }
  destruct (summary n doff s) as [[res r2]|] eqn:SM.
  { unfold summary in SM. destruct (sum n) as [[un fn]|] eqn:Sn; [|discriminate]. destruct s as [|[[[]|]|] r1]; try discriminate.
    destruct (s_take 0 [] r1) as [[a r2']|] eqn:T; [|discriminate]. destruct (forallb _ (doff ++ s_ends r2')) eqn:FU; [|discriminate]. destruct (fn a) as [res'|] eqn:Fa; [|discriminate].
    injection SM as -> ->. apply take_flat in T. destruct T as (_ & T & _). cbn [length skipn] in T.
    destruct (sk f strict doff r2) as [o|] eqn:G; [|discriminate]. injection E as <-.
    change (flatI (ST (R TLp) :: r1)) with (Tok TLp :: flatI r1). rewrite T.
    pose proof (sum_ok _ _ _ _ _ Sn Fa off (flatI r2 ++ rest) (flat o ++ orest)) as Q. rewrite flat_app, <- app_assoc.
    cbn [map app] in Q. rewrite map_app in Q. cbn [map] in Q. cbn [app]. rewrite <- !app_assoc in *. cbn [app] in *. apply Q.
    - intros x Hx. pose proof (sum_U _ _ _ _ Sn Hx) as F1. rewrite forallb_forall in FU.
      assert (Out : forall l, (forall y, In y l -> In y (doff ++ s_ends r2)) -> has x l = false).
      { intros l Hl. destruct (has x l) eqn:B; [|reflexivity]. apply has_in in B. specialize (FU x (Hl x B)). apply has_in in Hx. rewrite Hx in FU. discriminate. }
      pose proof (Out doff ltac:(intros; apply in_or_app; auto)) as F2. pose proof (Out (s_ends r2) ltac:(intros; apply in_or_app; auto)) as F3.
      specialize (HD x F1). rewrite F2 in HD. apply orb_false_iff in HD. destruct HD as [H1 H2]. split; [exact H1|].
      rewrite ends_app, has_app, ends_flatI, F3, H2. reflexivity.
    - eapply IHf; eauto. }
  destruct (params m) as [ps|] eqn:P.
  - pose proof (opening_flat s rest) as Op. destruct (s_opening s) as [r1| | |].
    + destruct (s_collect _ _ _ _ _ _) as [[args r2]|] eqn:C; [|discriminate].
      destruct (s_arrange _ _ _) as [[qs acts]|] eqn:A; [|discriminate].
      destruct (all_some _ _) as [full|] eqn:F; [|discriminate].
      destruct (s_substitute qs acts full None (body m)) as [b|] eqn:Sb; [|discriminate].
      eapply E_call with (args := map flat args) (r2 := flatI r2 ++ rest) (qs := qs) (acts := map flat acts) (full := map flat full) (b := flat b); eauto.
      * eapply (collect_flat off doff rest HD) in C. exact C.
      * apply arrange_flat. exact A.
      * assert (G : forall qs acts full, all_some (fun qa => if plain_use (fst qa) false (body m) then sk f false (doff ++ s_ends r2) (map ST (snd qa)) else Some []) (combine qs acts) = Some full ->
          Exps tb (off ++ ends (flatI r2 ++ rest)) (body m) (combine qs (map flat acts)) (map flat full)).
        { clear - IHf HD. induction qs as [|q qs IHq]; intros [|a acts] full F; cbn [combine all_some map] in F |- *; try (injection F as <-; apply Es_nil).
          cbn [fst snd] in F. destruct (plain_use q false (body m)) eqn:PU.
          - destruct (sk f false (doff ++ s_ends r2) (map ST a)) as [o|] eqn:Sa; [|discriminate]. destruct (all_some _ _) as [fl|] eqn:Al; [|discriminate].
            injection F as <-. cbn [map]. apply Es_cons; [exact PU| |apply IHq; exact Al].
            pose proof (IHf false _ _ _ Sa (off ++ ends (flatI r2 ++ rest)) [] []) as Q. rewrite !app_nil_r, flatI_map in Q. apply Q; auto; [|apply E_nil].
            intros x HUx. rewrite !has_app, ends_app, has_app, ends_flatI, <- (HD x HUx). destruct (has x off), (has x (s_ends r2)), (has x (ends rest)); reflexivity.
          - destruct (all_some _ _) as [fl|] eqn:Al; [|discriminate]. injection F as <-. cbn [map]. apply Es_skip; [exact PU|apply IHq; exact Al]. }
        apply G. exact F.
      * apply (substitute_flat _ _ _ _ None). exact Sb.
      * assert (X : map Tok (flat b) ++ End n :: flatI r2 ++ rest = flatI (map ST b ++ SE n :: r2) ++ rest).
        { rewrite flatI_app, flatI_map, <- app_assoc. reflexivity. }
        rewrite X. eapply IHf; eauto.
    + eapply named; eauto.
    + destruct strict; [discriminate|]. eapply named; eauto.
    + discriminate.
  - destruct (s_substitute [] [] [] None (body m)) as [b|] eqn:Sb; [|discriminate].
    eapply E_object; eauto.
    + apply (substitute_flat _ [] [] [] None). exact Sb.
    + assert (X : map Tok (flat b) ++ End n :: flatI s ++ rest = flatI (map ST b ++ SE n :: s) ++ rest).
      { rewrite flatI_app, flatI_map, <- app_assoc. reflexivity. }
      rewrite X. eapply IHf; eauto.
Qed.

(** a run that meets no end makes a closed step *)
Lemma sk_closed : forall f s out, sk f true [] (map ST s) = Some out -> closed U (flat s) (flat out).
Proof.
  intros f s out H off rest o D HR. rewrite <- flatI_map. eapply sk_sound; eauto.
  - intros n HU. apply has_in in HU. destruct (D n HU) as [-> ->]. reflexivity.
  - discriminate.
Qed.
End Skel.
