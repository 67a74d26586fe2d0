(** Proofs about the list macros: emptiness, first and other values, and the number of values. *)
From Coq Require Import List NArith Bool Arith Lia DecimalString.
From Verif Require Import Base MacroModel MacroProofs MacroProofs2.
Import ListNotations.
Local Open Scope N_scope.

(** the definitions, read once *)
Definition table : list (bytes * macro) := Eval vm_compute in defined.
Lemma table_defined : table = defined.
Proof. vm_cast_no_check (eq_refl defined). Qed.

(** finding a definition fast: by the length of the name, then from its end *)
Definition shelves : list (list (bytes * macro)) :=
  Eval vm_compute in map (fun n => map (fun p => (rev (fst p), snd p)) (filter (fun p => Nat.eqb (length (fst p)) n) table)) (seq 0 40).
Definition find (n : bytes) : option macro := lookup (nth (length n) shelves []) (rev n).

Lemma lookup_rev : forall tb n, lookup (map (fun p => (rev (fst p), snd p)) tb) (rev n) = lookup tb n.
Proof.
  induction tb as [|[k m] tb IH]; intros n; [reflexivity|]. cbn. rewrite IH.
  replace (bytes_eqb (rev n) (rev k)) with (bytes_eqb n k); [reflexivity|].
  apply eq_iff_eq_true. rewrite !bytes_eqb_eq. split; [congruence|]. intro H. rewrite <- (rev_involutive n), H. apply rev_involutive.
Qed.
Lemma lookup_filter : forall tb n, lookup (filter (fun p => Nat.eqb (length (fst p)) (length n)) tb) n = lookup tb n.
Proof.
  induction tb as [|[k m] tb IH]; intros n; [reflexivity|]. cbn [filter fst]. destruct (Nat.eqb_spec (length k) (length n)).
  - cbn. rewrite IH. reflexivity.
  - rewrite IH. cbn. destruct (bytes_eqb n k) eqn:E; [|reflexivity]. apply bytes_eqb_eq in E. congruence.
Qed.
Lemma lookup_short : forall tb n, forallb (fun p => Nat.ltb (length (fst p)) 40) tb = true -> (40 <= length n)%nat -> lookup tb n = None.
Proof.
  induction tb as [|[k m] tb IH]; intros n F L; [reflexivity|]. cbn [forallb fst] in F. apply andb_prop in F. destruct F as [F1 F2]. apply Nat.ltb_lt in F1.
  cbn. destruct (bytes_eqb n k) eqn:E; [apply bytes_eqb_eq in E; subst; lia|]. auto.
Qed.
Lemma shelves_eq : shelves = map (fun n => map (fun p => (rev (fst p), snd p)) (filter (fun p => Nat.eqb (length (fst p)) n) table)) (seq 0 40).
Proof. vm_cast_no_check (eq_refl shelves). Qed.
Lemma find_ok : forall n, find n = lookup table n.
Proof.
  intros n. unfold find. destruct (Nat.lt_ge_cases (length n) 40) as [L|L].
  - rewrite shelves_eq. set (g := fun n => map _ (filter _ table)).
    rewrite (nth_indep _ [] (g 0%nat)) by (rewrite map_length, seq_length; exact L).
    rewrite map_nth, seq_nth by exact L. cbn [plus]. subst g. cbv beta. rewrite lookup_rev. apply lookup_filter.
  - rewrite nth_overflow by (rewrite shelves_eq, map_length, seq_length; exact L).
    symmetry. apply lookup_short; [vm_compute; reflexivity|exact L].
Qed.

(** comparing results *)
Definition tok_eqb (a b : tok) : bool :=
  match a, b with
  | TId x p, TId y q => bytes_eqb x y && Bool.eqb p q
  | TNum x, TNum y | TOther x, TOther y => bytes_eqb x y
  | TLp, TLp | TRp, TRp | TComma, TComma => true
  | _, _ => false
  end.
Lemma tok_eqb_eq : forall a b, tok_eqb a b = true -> a = b.
Proof.
  intros [x p|x| | | |x] [y q|y| | | |y] H; cbn in H; try discriminate; try reflexivity.
  - apply andb_prop in H. destruct H as [H1 H2]. apply bytes_eqb_eq in H1. apply Bool.eqb_prop in H2. congruence.
  - apply bytes_eqb_eq in H. congruence.
  - apply bytes_eqb_eq in H. congruence.
Qed.
Definition stok_eqb (a b : stok) : bool := match a, b with R x, R y => tok_eqb x y | O i, O j => Nat.eqb i j | _, _ => false end.
Fixpoint stoks_eqb (a b : list stok) : bool :=
  match a, b with [], [] => true | x :: a', y :: b' => stok_eqb x y && stoks_eqb a' b' | _, _ => false end.
Lemma stoks_eqb_eq : forall a b, stoks_eqb a b = true -> a = b.
Proof.
  induction a as [|x a IH]; intros [|y b] H; cbn in H; try discriminate; [reflexivity|]. apply andb_prop in H. destruct H as [H1 H2].
  rewrite (IH _ H2). f_equal. destruct x, y; cbn in H1; try discriminate; [apply tok_eqb_eq in H1; congruence|apply Nat.eqb_eq in H1; congruence].
Qed.
Definition gives (r : option (list stok)) (e : list stok) : bool := match r with Some o => stoks_eqb o e | None => false end.
Lemma gives_eq : forall r e, gives r e = true -> r = Some e.
Proof. intros [o|] e H; [|discriminate]. apply stoks_eqb_eq in H. congruence. Qed.

(** values *)
Notation value := (fits table Loose).
Fixpoint commas (vs : list (list tok)) : list tok := match vs with [] => [] | [w] => w | w :: r => w ++ TComma :: commas r end.
Lemma commas_cons : forall w ws, commas (w :: ws) = w ++ flat_map (fun x => TComma :: x) ws.
Proof.
  intros w ws. revert w. induction ws as [|x ws IH]; intros w; [cbn; rewrite app_nil_r; reflexivity|].
  change (commas (w :: x :: ws)) with (w ++ TComma :: commas (x :: ws)). rewrite IH. reflexivity.
Qed.

Lemma walk_app : forall c a b d e, walk c d a = Some e -> walk c d (a ++ b) = walk c e b.
Proof.
  intros c. induction a as [|t a IH]; intros b d e H; [injection H as <-; reflexivity|].
  destruct t; cbn in *; auto.
  - destruct d; [discriminate|auto].
  - destruct d; [destruct c; [auto|discriminate]|auto].
Qed.
Lemma walk_true : forall a d e, walk false d a = Some e -> walk true d a = Some e.
Proof.
  induction a as [|t a IH]; intros d e H; [exact H|]. destruct t; cbn in *; auto.
  - destruct d; [discriminate|auto].
  - destruct d; [discriminate|auto].
Qed.
Lemma value_inn : forall w, value w -> fits table Inn w.
Proof. intros w (C & _ & W). split; [exact C|]. apply walk_true. exact W. Qed.
Lemma commas_inn : forall vs, Forall value vs -> fits table Inn (commas vs).
Proof.
  intros [|w ws] H; [split; [constructor|reflexivity]|]. inversion H as [|? ? Hw Hs]; subst. rewrite commas_cons.
  destruct (value_inn _ Hw) as [Cw Ww].
  assert (G : Forall (calm table) (flat_map (fun x => TComma :: x) ws) /\ walk true 0 (flat_map (fun x => TComma :: x) ws) = Some 0%nat).
  { clear - Hs. induction ws as [|x ws IH]; [split; [constructor|reflexivity]|]. inversion Hs as [|? ? Hx Hr]; subst. destruct (IH Hr) as [C W].
    destruct (value_inn _ Hx) as [Cx Wx]. cbn. split.
    - constructor; [exact I|]. apply Forall_app. auto.
    - rewrite (walk_app _ _ _ _ _ Wx). exact W. }
  destruct G as [C W]. split; [apply Forall_app; auto|]. rewrite (walk_app _ _ _ _ _ Ww). exact W.
Qed.

(** a text in balance below: the first group *)
Lemma walk_split : forall c a d, walk c (S d) a = Some 0%nat -> exists x y, a = x ++ TRp :: y /\ walk true 0 x = Some 0%nat /\ walk c d y = Some 0%nat.
Proof.
  intros c a. remember (length a) as n eqn:Hn. assert (L : (length a <= n)%nat) by lia. clear Hn. revert a L.
  induction n as [|n IH]; intros [|t a] L d H; cbn in L; try lia; try discriminate.
  destruct t as [nm b|x| | | |x]; cbn in H.
  - destruct (IH a ltac:(lia) d H) as (p & q & -> & P & Q). exists (TId nm b :: p), q. auto.
  - destruct (IH a ltac:(lia) d H) as (p & q & -> & P & Q). exists (TNum x :: p), q. auto.
  - destruct (IH a ltac:(lia) (S d) H) as (p & q & -> & P & Q). rewrite app_length in L. cbn in L.
    destruct (IH q ltac:(lia) d Q) as (p' & q' & -> & P' & Q'). exists (TLp :: p ++ TRp :: p'), q'. repeat split; auto.
    + cbn. rewrite <- app_assoc. reflexivity.
    + cbn. clear - P P'. assert (G : forall p d, walk true d p = Some 0%nat -> forall e, walk true (S e + d) (p ++ TRp :: p') = walk true e p').
      { clear. induction p as [|t p IH]; intros d H e.
        - cbn in H. injection H as ->. rewrite Nat.add_0_r. reflexivity.
        - destruct t; cbn in H |- *; try (apply IH; exact H).
          + rewrite <- (IH _ H e). cbn. rewrite Nat.add_succ_r. reflexivity.
          + destruct d; [discriminate|]. rewrite <- (IH _ H e). rewrite Nat.add_succ_r. reflexivity.
          + destruct d; apply IH; exact H. }
      specialize (G p 0%nat P 0%nat). cbn in G. rewrite G. exact P'.
  - exists [], a. auto.
  - destruct (IH a ltac:(lia) d H) as (p & q & -> & P & Q). exists (TComma :: p), q. auto.
  - destruct (IH a ltac:(lia) d H) as (p & q & -> & P & Q). exists (TOther x :: p), q. auto.
Qed.

(** a value either does not begin with a parenthesis or is a group, followed by something or not *)
Lemma value_shape : forall w, value w -> fits table Plain w \/ exists p q, w = TLp :: p ++ TRp :: q /\ fits table Inn p /\ (q = [] \/ value q).
Proof.
  intros w (C & N0 & W). destruct w as [|t w]; [contradiction|]. destruct t; try (left; repeat split; auto; cbn; discriminate).
  right. cbn in W. destruct (walk_split _ _ _ W) as (p & q & -> & P & Q). inversion C as [|? ? _ C']; subst. apply Forall_app in C'. destruct C' as [Cp Cq].
  inversion Cq as [|? ? _ Cq']; subst. exists p, q. repeat split; auto. destruct q; [left; reflexivity|right; repeat split; auto; discriminate].
Qed.


(** *** arguments of a call as the pieces between commas *)
Local Arguments lookup : simpl never.
Local Arguments bytes_eqb : simpl never.
Definition quiet (un : list bytes) (t : tok) : Prop := match t with TId n false => lookup table n = None \/ In n un | _ => True end.
Lemma calm_quiet : forall un t, calm table t -> quiet un t.
Proof. intros un [n [|]|x| | | |x] H; try exact I. left. exact H. Qed.
Lemma calm_quiets : forall un ts, Forall (calm table) ts -> Forall (quiet un) ts.
Proof. intros un ts H. eapply Forall_impl; [|exact H]. intros t. apply calm_quiet. Qed.

Fixpoint pieces (d : nat) (cur : list tok) (ts : list tok) : list (list tok) :=
  match ts with
  | [] => [rev cur]
  | TLp :: r => pieces (S d) (TLp :: cur) r
  | TRp :: r => pieces (pred d) (TRp :: cur) r
  | TComma :: r => match d with Datatypes.O => rev cur :: pieces 0 [] r | _ => pieces d (TComma :: cur) r end
  | t :: r => pieces d (t :: cur) r
  end.
Fixpoint ncommas (d : nat) (ts : list tok) : nat :=
  match ts with
  | [] => 0
  | TLp :: r => ncommas (S d) r
  | TRp :: r => ncommas (pred d) r
  | TComma :: r => match d with Datatypes.O => S (ncommas 0 r) | _ => ncommas d r end
  | _ :: r => ncommas d r
  end.
Lemma pieces_length : forall ts d cur, length (pieces d cur ts) = S (ncommas d ts).
Proof. induction ts as [|t ts IH]; intros d cur; [reflexivity|]. destruct t; cbn; auto. destruct d; cbn; auto. Qed.
Lemma commas_pieces : forall ts d cur, commas (pieces d cur ts) = rev cur ++ ts.
Proof.
  induction ts as [|t ts IH]; intros d cur; [cbn; rewrite app_nil_r; reflexivity|].
  assert (keep : forall d', commas (pieces d' (t :: cur) ts) = rev cur ++ t :: ts) by (intro; rewrite IH; cbn [rev]; rewrite <- app_assoc; reflexivity).
  destruct t; cbn [pieces]; auto. destruct d; [|apply keep]. pose proof (pieces_length ts 0 []) as L. specialize (IH 0%nat []).
  destruct (pieces 0 [] ts) as [|x l]; [discriminate|]. change (commas (rev cur :: x :: l)) with (rev cur ++ TComma :: commas (x :: l)). rewrite IH. reflexivity.
Qed.
Lemma pieces_app : forall a d cur b, walk true d a = Some 0%nat -> pieces d cur (a ++ TComma :: b) = pieces d cur a ++ pieces 0 [] b.
Proof.
  induction a as [|t a IH]; intros d cur b W; [cbn in W; injection W as ->; reflexivity|].
  destruct t; cbn in W |- *; auto.
  - destruct d; [discriminate|]. apply IH. exact W.
  - destruct d; [rewrite IH by exact W; reflexivity|apply IH; exact W].
Qed.
Lemma pieces_calm : forall un ts d cur, Forall (quiet un) ts -> Forall (quiet un) cur -> Forall (Forall (quiet un)) (pieces d cur ts).
Proof.
  intros un. induction ts as [|t ts IH]; intros d cur C D.
  - cbn. constructor; [apply Forall_rev; exact D|constructor].
  - inversion C; subst. destruct t; cbn; try (apply IH; auto; fail). destruct d; [constructor; [apply Forall_rev; exact D|]|]; apply IH; auto.
Qed.
Lemma ncommas_app : forall a b d e, walk true d a = Some e -> ncommas d (a ++ b) = (ncommas d a + ncommas e b)%nat.
Proof.
  induction a as [|t a IH]; intros b d e W; [cbn in W; injection W as ->; reflexivity|].
  destruct t; cbn in W |- *; auto.
  - destruct d; [discriminate|]. apply IH. exact W.
  - destruct d; [rewrite (IH b 0%nat e W); reflexivity|apply IH; exact W].
Qed.

Fixpoint grp (named : nat) (xs : list (list tok)) : list (list tok) :=
  match named, xs with
  | Datatypes.O, _ => [commas xs]
  | S k, [] => []
  | S k, [x] => [x]
  | S k, x :: r => x :: grp k r
  end.
Lemma collect_pieces : forall un off rest, (forall n, In n un -> has n off = false /\ has n (ends rest) = false) ->
  forall ts named d cur, walk true d ts = Some 0%nat -> Forall (quiet un) ts ->
  collect table off true named d cur (map Tok ts ++ Tok TRp :: rest) = Some (grp named (pieces d cur ts), rest).
Proof.
  intros un off rest H. induction ts as [|t ts IH]; intros named d cur W Q.
  - cbn in W. injection W as ->. cbn. destruct named; reflexivity.
  - inversion Q as [|? ? Qt Qs]; subst. cbn [map app]. destruct t as [n [|]|x| | | |x]; cbn [collect pieces]; cbn in W; try (apply IH; assumption).
    + assert (B : match lookup table n with Some _ => disabled n off (map Tok ts ++ Tok TRp :: rest) | None => false end = false).
      { destruct (lookup table n) eqn:L; [|reflexivity]. destruct Qt as [Qt|Qt]; [congruence|]. destruct (H n Qt) as [H1 H2].
        unfold disabled. rewrite ends_app, ends_toks. cbn [app ends]. rewrite H1, H2. reflexivity. }
      rewrite B. apply IH; assumption.
    + destruct d; [discriminate|]. apply IH; assumption.
    + destruct d; [|apply IH; assumption]. destruct named as [|k].
      * rewrite IH by assumption. cbn [grp]. rewrite !commas_pieces. do 3 f_equal.
        pose proof (pieces_length ts 0 []) as L. pose proof (commas_pieces ts 0%nat []) as C. destruct (pieces 0 [] ts) as [|x l]; [discriminate|].
        change (commas (rev cur :: x :: l)) with (rev cur ++ TComma :: commas (x :: l)). rewrite C. cbn. rewrite <- app_assoc. reflexivity.
      * rewrite IH by assumption. cbn [option_map fst snd grp]. pose proof (pieces_length ts 0 []) as L. destruct (pieces 0 [] ts); [discriminate|reflexivity].
Qed.
Lemma grp_length : forall k xs, (k < length xs)%nat -> length (grp k xs) = S k.
Proof. induction k as [|k IH]; intros [|x [|y xs]] L; cbn in L; try lia; try reflexivity. cbn [grp length]. f_equal. apply IH. cbn. lia. Qed.
Lemma grp_nth : forall k xs i, (i < k)%nat -> (k < length xs)%nat -> nth i (grp k xs) [] = nth i xs [].
Proof.
  induction k as [|k IH]; intros [|x [|y xs]] i Hi L; cbn in L; try lia. cbn [grp]. destruct i; [reflexivity|]. cbn [nth]. apply IH; cbn; lia.
Qed.

(** choosing the argument at a place *)
Fixpoint place_of (n : bytes) (ps : list bytes) : option nat :=
  match ps with [] => None | p :: r => if bytes_eqb n p then Some 0%nat else option_map S (place_of n r) end.
Lemma actual_nth : forall n b ps args k, place_of n ps = Some k -> (k < length args)%nat -> actual ps args (TId n b) = Some (nth k args []).
Proof.
  intros n b. induction ps as [|p ps IH]; intros args k H L; [discriminate|]. destruct args as [|a args]; [cbn in L; lia|]. cbn in H |- *.
  destruct (bytes_eqb n p); [injection H as <-; reflexivity|]. destruct (place_of n ps) as [j|]; [|discriminate]. injection H as <-. cbn in *. apply IH; [reflexivity|lia].
Qed.
Definition done_args (b : list tok) (l : list (bytes * list tok)) : list (list tok) := map (fun qa => if plain_use (fst qa) false b then snd qa else []) l.
Lemma exps_done : forall off b l, (forall q a, In (q, a) l -> plain_use q false b = true -> Forall (calm table) a) -> Exps table off b l (done_args b l).
Proof.
  intros off b. induction l as [|[q a] l IH]; intros H; [apply Es_nil|]. unfold done_args. cbn [map fst snd]. destruct (plain_use q false b) eqn:P.
  - apply Es_cons; [exact P| |apply IH; intros; eapply H; [right; eassumption|assumption]].
    rewrite <- (app_nil_r (map Tok a)). rewrite <- (app_nil_r a) at 2. apply exp_part; [|apply E_nil]. eapply H; [left; reflexivity|exact P].
  - apply Es_skip; [exact P|]. apply IH. intros. eapply H; [right; eassumption|assumption].
Qed.

Lemma done_nth : forall b l k, nth k (done_args b l) [] = if plain_use (fst (nth k l ([], []))) false b then snd (nth k l ([], [])) else [].
Proof.
  intros b. unfold done_args. induction l as [|[q a] l IH]; intros [|k]; cbn [map nth fst snd]; try (destruct (plain_use _ _ _); reflexivity); auto.
Qed.

Definition th64 : bytes := Eval vm_compute in str "_H2PP_64TH".
Definition th_params : list bytes := Eval vm_compute in match lookup table th64 with Some m => match params m with Some ps => ps | None => [] end | None => [] end.
Definition th_body : list tok := Eval vm_compute in match lookup table th64 with Some m => body m | None => [] end.
Lemma th_macro : lookup table th64 = Some (mkmacro (Some th_params) true th_body).
Proof. vm_compute. reflexivity. Qed.
Lemma th_only : forall q, In q th_params -> plain_use q false th_body = true -> place_of q th_params = Some 64%nat.
Proof.
  assert (H : forallb (fun q => negb (plain_use q false th_body) || match place_of q th_params with Some k => Nat.eqb k 64 | None => false end) th_params = true) by (vm_compute; reflexivity).
  intros q I P. rewrite forallb_forall in H. specialize (H q I). rewrite P in H. cbn [negb orb] in H. destruct (place_of q th_params); [|discriminate]. apply Nat.eqb_eq in H. congruence.
Qed.
Lemma in_combine_nth : forall (qs : list bytes) (acts : list (list tok)) q a, In (q, a) (combine qs acts) -> exists k, (k < length qs)%nat /\ (k < length acts)%nat /\ nth k qs [] = q /\ nth k acts [] = a.
Proof.
  induction qs as [|x qs IH]; intros [|y acts] q a H; try contradiction. cbn in H. destruct H as [H|H].
  - injection H as <- <-. exists 0%nat. cbn. repeat split; lia.
  - destruct (IH _ _ _ H) as (k & H1 & H2 & H3 & H4). exists (S k). cbn. repeat split; try lia; assumption.
Qed.

Lemma grp_all : forall xs k, length xs = S k -> grp (S k) xs = xs.
Proof.
  induction xs as [|x xs IH]; intros k L; [discriminate|]. destruct xs as [|y xs]; [reflexivity|]. destruct k; [discriminate|].
  change (grp (S (S k)) (x :: y :: xs)) with (x :: grp (S k) (y :: xs)). rewrite IH; [reflexivity|]. cbn in L |- *. lia.
Qed.
Lemma th_arranged : forall xs, (65 <= length xs)%nat ->
  exists acts, arrange th_params true (grp 65 xs) = Some (th_params ++ [str "__VA_ARGS__"], acts) /\ length acts = 66%nat /\ nth 64 acts [] = nth 64 xs [].
Proof.
  intros xs L. destruct (Nat.eq_dec (length xs) 65) as [E|E].
  - rewrite (grp_all xs 64 E). exists (xs ++ [[]]). unfold arrange. rewrite E. repeat split.
    + rewrite app_length, E. reflexivity.
    + apply app_nth1. rewrite E. lia.
  - assert (Lg : length (grp 65 xs) = 66%nat) by (apply grp_length; lia). exists (grp 65 xs). unfold arrange. rewrite Lg. repeat split.
    apply grp_nth; lia.
Qed.

(** the macro that chooses the argument with number 64 *)
Lemma choose64 : forall un ts, walk true 0 ts = Some 0%nat -> Forall (quiet un) ts -> (64 <= ncommas 0 ts)%nat -> Forall (calm table) (nth 64 (pieces 0 [] ts) []) ->
  closed table (th64 :: un) (TId th64 false :: TLp :: ts ++ [TRp]) (nth 64 (pieces 0 [] ts) []).
Proof.
  intros un ts W Q L C off rest out H HR. set (xs := pieces 0 [] ts) in *.
  assert (Lx : length xs = S (ncommas 0 ts)) by apply pieces_length.
  assert (HQ : collect table off true 65 0 [] (map Tok ts ++ Tok TRp :: rest) = Some (grp 65 xs, rest)).
  { apply (collect_pieces un); auto. intros n Hn. apply H. right. exact Hn. }
  destruct (th_arranged xs ltac:(lia)) as (acts & Ea & Lg & Na).
  cbn [map app]. rewrite map_app, <- app_assoc. cbn [map app].
  eapply E_call with (m := mkmacro (Some th_params) true th_body) (ps := th_params) (r1 := map Tok ts ++ Tok TRp :: rest) (args := grp 65 xs) (r2 := rest)
    (qs := th_params ++ [str "__VA_ARGS__"]) (acts := acts) (full := done_args th_body (combine (th_params ++ [str "__VA_ARGS__"]) acts)) (b := nth 64 xs []).
  - exact th_macro.
  - destruct (H th64 (or_introl eq_refl)) as [H1 H2]. unfold disabled. cbn [ends]. rewrite ends_app, ends_toks. cbn [ends app]. rewrite H1, H2. reflexivity.
  - reflexivity.
  - reflexivity.
  - exact HQ.
  - exact Ea.
  - apply exps_done. intros q a I P. cbn [body] in P. apply in_combine_nth in I. destruct I as (k & K1 & K2 & Hq & Ha).
    assert (k = 64%nat).
    { destruct (Nat.eq_dec k 65) as [->|Hk].
      - exfalso. subst q. revert P. vm_compute. discriminate.
      - rewrite app_length in K1. change (length th_params) with 65%nat in K1. cbn [length] in K1. assert (K3 : (k < 65)%nat) by lia.
        rewrite app_nth1 in Hq by (change (length th_params) with 65%nat; exact K3).
        pose proof (th_only q ltac:(subst q; apply nth_In; exact K3) P) as PO.
        assert (U : forallb (fun k => match place_of (nth k th_params []) th_params with Some j => Nat.eqb j k | None => false end) (seq 0 65) = true) by (vm_compute; reflexivity).
        rewrite forallb_forall in U. specialize (U k ltac:(apply in_seq; lia)). rewrite Hq, PO in U. apply Nat.eqb_eq in U. congruence. }
    subst k. rewrite Na in Ha. subst a. exact C.
  - cbn [body]. assert (A : actual (th_params ++ [str "__VA_ARGS__"]) (done_args th_body (combine (th_params ++ [str "__VA_ARGS__"]) acts)) (TId (str "_64") false) = Some (nth 64 xs [])).
    { rewrite (actual_nth _ _ _ _ 64%nat).
      - f_equal. rewrite done_nth, combine_nth by (rewrite Lg; reflexivity). cbn [fst snd]. rewrite Na.
        change (plain_use _ _ _) with true. reflexivity.
      - vm_compute. reflexivity.
      - unfold done_args. rewrite map_length, combine_length, Lg. vm_compute. lia. }
    change th_body with [TId (str "_64") false]. cbn [substitute]. f_equal. unfold place. change [TId (str "_64") false] with th_body. rewrite A. reflexivity.
  - apply exp_part; [exact C|]. apply E_end. exact HR.
Qed.
