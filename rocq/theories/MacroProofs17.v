(** Proofs about the list macros: the foremost value. *)
From Coq Require Import List NArith Bool Arith Lia.
From Verif Require Import Base MacroModel MacroProofs MacroProofs2 MacroProofs3 MacroProofs4 MacroProofs5 MacroProofs6 MacroProofs7 MacroProofs8 MacroProofs9 MacroProofs10 MacroProofs11 MacroProofs12 MacroProofs13.
From Verif Require MacroSpec MacroSpec2.
Import ListNotations.
Local Open Scope N_scope.
Local Arguments lookup : simpl never.
Local Arguments bytes_eqb : simpl never.

(** lists whose first value may be a list *)
Inductive nest := Void | Flat (v : list tok) (vs : list (list tok)) | Cast (p q : list tok) (vs : list (list tok)) | Deep (n : nest) (vs : list (list tok)).
Fixpoint vals (n : nest) : list (list tok) :=
  match n with Void => [] | Flat v vs => v :: vs | Cast p q vs => (TLp :: p ++ TRp :: q) :: vs | Deep n vs => (TLp :: commas (vals n) ++ [TRp]) :: vs end.
Fixpoint front (n : nest) : list tok := match n with Void => [number 0] | Flat v _ => v | Cast p q _ => TLp :: p ++ TRp :: q | Deep n _ => front n end.
Fixpoint deep (n : nest) : nat := match n with Deep n _ => S (deep n) | _ => 0%nat end.
Fixpoint okN (n : nest) : Prop :=
  match n with Void => True | Flat v vs => fits table Plain v /\ few (v :: vs) | Cast p q vs => fits table Inn p /\ value q /\ few ((TLp :: p ++ TRp :: q) :: vs) | Deep n vs => okN n /\ few (vals (Deep n vs)) end.

Definition t_an : tok := Eval vm_compute in TId (str "_H2_An") false.
Definition t_an2 : tok := Eval vm_compute in TId (str "_H2_An2") false.
Definition n_ispar : bytes := Eval vm_compute in str "H2PP_IS_PARENTHESIS".
Definition pendA (first : bool) (l : list stok) : list stok := (if first then [R t_an] else [R t_an2; R TLp; R TRp]) ++ R TLp :: l ++ [R TRp].
Definition rest (some : bool) : list stok := if some then [R TComma; O 17] else [].
Definition inner : list stok := [R TLp; O 18; R TRp].
Definition cast : list stok := [R TLp; O 18; R TRp; O 16].
Definition shape (n : nest) : list stok := match n with Void => [] | Flat _ vs => O 11 :: rest (someb vs) | Cast _ _ vs => cast ++ rest (someb vs) | Deep _ vs => inner ++ rest (someb vs) end.
Inductive first_is := IsPlain | IsCast | IsGroup.
Definition first_text (k : first_is) : list stok := match k with IsPlain => [O 11] | IsCast => cast | IsGroup => inner end.
Definition eqsA (k : first_is) (some : bool) : list eqn :=
  [(n_empty, first_text k ++ rest some, [R (number 0)]); (n_ispar, first_text k, [R (number (match k with IsGroup => 1 | _ => 0 end))])].
Definition namesA : list bytes := Eval vm_compute in base ++ [str "_H2_An"; str "_H2_An1_1"; str "_H2_An1_0"; str "_H2_An1"; str "_H2_An2_0"; str "_H2_An2_1"; str "_H2_An2"; str "H2PP_DEFER"].
Definition runA (eqs : list eqn) (s : list stok) : option (list stok) := sk find kindF (known base eqs) namesA 60 true [] (map ST s).
Definition two : list bool := [true; false].
Definition kinds3 : list first_is := [IsPlain; IsCast; IsGroup].
Lemma runA_all : forallb (fun first => forallb (fun some => forallb (fun k => gives (runA (eqsA k some) (pendA first (first_text k ++ rest some))) (match k with IsGroup => pendA false [O 18] | _ => first_text k end) &&
  s_walk namesA 0 (pendA first (first_text k ++ rest some))) kinds3) two && gives (runA [(n_empty, [], [R (number 1)])] (pendA first [])) [R (number 0)] && s_walk namesA 0 (pendA first [])) two = true.
Proof. vm_cast_no_check (eq_refl true). Qed.
Lemma both : forall b, In b two. Proof. intros [|]; [left|right; left]; reflexivity. Qed.
Lemma each3 : forall k, In k kinds3. Proof. intros [| |]; cbn; auto. Qed.
Lemma runA_none : forall first, gives (runA [(n_empty, [], [R (number 1)])] (pendA first [])) [R (number 0)] = true /\ s_walk namesA 0 (pendA first []) = true.
Proof.
  intro first. pose proof runA_all as A. rewrite forallb_forall in A. specialize (A first (both first)). apply andb_prop in A. destruct A as [A A6]. apply andb_prop in A. destruct A as [A A5]. auto.
Qed.
Lemma runA_ok : forall first k some, gives (runA (eqsA k some) (pendA first (first_text k ++ rest some))) (match k with IsGroup => pendA false [O 18] | _ => first_text k end) = true /\ s_walk namesA 0 (pendA first (first_text k ++ rest some)) = true.
Proof.
  intros first k some. pose proof runA_all as A. rewrite forallb_forall in A. specialize (A first (both first)). apply andb_prop in A. destruct A as [A A6]. apply andb_prop in A. destruct A as [A A5].
  rewrite forallb_forall in A. specialize (A some (both some)). rewrite forallb_forall in A. specialize (A k (each3 k)). apply andb_prop in A. exact A.
Qed.

Local Opaque sk find.
Lemma ispar_plain : forall w, fits table Plain w -> Closed base (called n_ispar w) [number 0].
Proof.
  intros w Hw. set (v := parts w [] [number 0] []).
  assert (Hv : forall k, fits table (kinds k) (v k)) by (apply parts_ok; [exact Hw|split; [constructor|reflexivity]|apply number_fits|constructor]).
  assert (G : gives (runb (call [O 0] n_ispar)) [R (number 0)] = true) by (vm_cast_no_check (eq_refl true)). apply gives_eq in G.
  pose proof (sk_closed table find find_ok kinds th_sum base v Hv th_base (th_sum_ok v 0 Hv eq_refl eq_refl ltac:(lia)) _ _ _ G) as C. rewrite flat_call in C.
  cbn [flat flat_map flat1] in C. rewrite !app_nil_r in C. exact C.
Qed.
Lemma ispar_group : forall p, fits table Inn p -> Closed base (called n_ispar (TLp :: p ++ [TRp])) [number 1].
Proof.
  intros p Hp. set (v := parts [number 0] p [number 0] []).
  assert (Hv : forall k, fits table (kinds k) (v k)) by (apply parts_ok; [apply (dummy_fits 0)|exact Hp|apply number_fits|constructor]).
  assert (G : gives (runb (call [R TLp; O 1; R TRp] n_ispar)) [R (number 1)] = true) by (vm_cast_no_check (eq_refl true)). apply gives_eq in G.
  pose proof (sk_closed table find find_ok kinds th_sum base v Hv th_base (th_sum_ok v 0 Hv eq_refl eq_refl ltac:(lia)) _ _ _ G) as C. rewrite flat_call in C.
  cbn [flat flat_map flat1] in C. exact C.
Qed.

Lemma ispar_cast : forall p q, fits table Inn p -> value q -> Closed base (called n_ispar (TLp :: p ++ TRp :: q)) [number 0].
Proof.
  assert (G : forallb (fun s => gives (runb (call (R TLp :: O 6 :: R TRp :: s) n_ispar)) [R (number 0)]) heads = true) by (vm_cast_no_check (eq_refl true)).
  intros p q Hp Hq.
 destruct (shapes q [] Hq ltac:(constructor)) as (v & h & I & Hv & E & E5 & E4).
 rewrite forallb_forall in G. specialize (G h I).
 apply gives_eq in G.
  set (w := fun k => if Nat.eqb k 6 then p else v k).
  assert (Hw : forall k, fits table (kinds k) (w k)) by (intro k; unfold w; destruct (Nat.eqb_spec k 6) as [->|]; [exact Hp|apply Hv]).
  assert (W5 : ncommas 0 (w 5%nat) = 0%nat). change (w 5%nat) with (v 5%nat). rewrite E5. reflexivity.
  assert (W4 : w 4%nat = [number 2]). change (w 4%nat) with (v 4%nat). rewrite E4. reflexivity.
  assert (L : (0 <= 62)%nat) by lia.
  assert (C : Closed base (flat w (call (R TLp :: O 6 :: R TRp :: h) n_ispar)) (flat w [R (number 0)])).
  { eapply (sk_closed table find find_ok kinds th_sum base w Hw th_base); [|exact G]. intros n un fn a res. apply (th_sum_ok w 0 Hw W5 W4). lia. }
  rewrite flat_call in C.
  assert (F : flat w h = q). rewrite <- E. clear - I. destruct I as [<-|[<-|[<-|[]]]]; reflexivity.
  replace (flat w (R TLp :: O 6 :: R TRp :: h)) with (TLp :: p ++ TRp :: q) in C by (rewrite <- F; reflexivity).
 exact C.
Qed.

(** the parts: 11 a first value not in parentheses, 18 what is within those of the first, 16 what follows them, 17 the other values, 15 all values *)
Definition vA (all : list (list tok)) (n : nest) (k : nat) : list tok :=
  match k, n with
  | 11%nat, Flat v _ => v
  | 15%nat, _ => commas all
  | 17%nat, Flat _ vs => commas vs
  | 17%nat, Cast _ _ vs => commas vs
  | 18%nat, Cast p _ _ => p
  | 16%nat, Cast _ q _ => q
  | 17%nat, Deep _ vs => commas vs
  | 18%nat, Deep m _ => commas (vals m)
  | _, _ => match kindF k with Inn => [] | _ => [number 0] end
  end.
Lemma okN_few : forall n, okN n -> few (vals n).
Proof. intros [|v vs|p q vs|n vs] H; [split; [constructor|cbn; lia]|apply H|apply H|apply H]. Qed.
Lemma vA_ok : forall all n, Forall value all -> okN n -> forall k, fits table (kindF k) (vA all n k).
Proof.
  intros all n Ha H k. assert (D : forall k, fits table (kindF k) (match kindF k with Inn => [] | _ => [number 0] end)) by (intro; apply fill).
  assert (T : forall v vs, few (v :: vs) -> fits table Inn (commas vs)) by (intros v vs [F _]; apply commas_inn; exact (Forall_inv_tail F)). pose proof (commas_inn all Ha) as A.
  destruct n as [|v vs|p q vs|n vs]; do 19 (destruct k as [|k]; [first [exact (D _)|exact A|exact (proj1 H)|exact (T v vs (proj2 H))|exact (proj1 (proj2 H))|exact (T _ vs (proj2 (proj2 H)))|exact (T _ vs (proj2 H))|
    exact (commas_inn _ (proj1 (okN_few n (proj1 H))))]|]); apply D.
Qed.
Lemma flat_first : forall all n, match n with Void => True | Flat v _ => flat (vA all n) [O 11] = v | Cast p q _ => flat (vA all n) cast = TLp :: p ++ TRp :: q | Deep m _ => flat (vA all n) inner = TLp :: commas (vals m) ++ [TRp] end.
Proof. intros all [|v vs|p q vs|n vs]; [exact Logic.I| | |]; cbn; rewrite ?app_nil_r; reflexivity. Qed.
Lemma flat_rest : forall v vs, v 17%nat = commas vs -> forall f, f ++ flat v (rest (someb vs)) = commas (f :: vs).
Proof. intros v [|w vs] E f; cbn [someb rest flat flat_map flat1 app]; [apply app_nil_r|]. rewrite E, app_nil_r. reflexivity. Qed.
Lemma flat_shape : forall all n, flat (vA all n) (shape n) = commas (vals n).
Proof.
  intros all n. pose proof (flat_first all n) as F. destruct n as [|v vs|p q vs|n vs]; [reflexivity| | |]; cbn [shape vals].
  - change (O 11 :: rest (someb vs)) with ([O 11] ++ rest (someb vs)). rewrite flat_app, F. apply flat_rest. reflexivity.
  - rewrite flat_app, F. apply flat_rest. reflexivity.
  - rewrite flat_app, F. apply flat_rest. reflexivity.
Qed.
Lemma flat_pendA : forall v first l, flat v (pendA first l) = (if first then [t_an] else [t_an2; TLp; TRp]) ++ TLp :: flat v l ++ [TRp].
Proof. intros v first l. unfold pendA. rewrite flat_app. f_equal; [destruct first; reflexivity|]. change (TLp :: flat v (l ++ [R TRp]) = TLp :: flat v l ++ [TRp]). rewrite flat_app. reflexivity. Qed.
Definition textA (w : bool * nest) : list tok := flat (vA [] (snd w)) (pendA (fst w) (shape (snd w))).
Definition nextA (w : bool * nest) : list (list tok + bool * nest) :=
  match snd w with Void => [inl [number 0]] | Flat v _ => [inl v] | Cast p q _ => [inl (TLp :: p ++ TRp :: q)] | Deep n _ => [inr (false, n)] end.
Lemma front_fits : forall n, okN n -> fits table Inn (front n).
Proof.
  induction n as [|v vs|p q vs|n IH vs]; intros H; [split; [repeat constructor|reflexivity]| | |apply IH; apply H].
  - destruct H as [(C & _ & W & _) _]. split; [exact C|apply walk_true; exact W].
  - destruct H as (_ & _ & [V _]). apply Forall_inv in V. destruct V as (C & _ & W). split; [exact C|apply walk_true; exact W].
Qed.
Lemma holdsA : forall all n, okN n -> Forall (holds base (vA all n)) (match n with Void => [(n_empty, [], [R (number 1)])] | Flat _ vs => eqsA IsPlain (someb vs) | Cast _ _ vs => eqsA IsCast (someb vs) | Deep _ vs => eqsA IsGroup (someb vs) end).
Proof.
  intros all n H. pose proof (flat_shape all n) as F. pose proof (flat_first all n) as G. destruct n as [|v vs|p q vs|n vs].
  - constructor; [exact empty_nil|constructor].
  - constructor; [|constructor; [|constructor]]; unfold holds; cbn [first_text].
    + change ([O 11] ++ rest (someb vs)) with (shape (Flat v vs)). rewrite F. apply (empty_list v vs). apply H.
    + rewrite G. apply ispar_plain. apply H.
  - constructor; [|constructor; [|constructor]]; unfold holds; cbn [first_text].
    + change (cast ++ rest (someb vs)) with (shape (Cast p q vs)). rewrite F. apply (empty_list _ vs). apply H.
    + rewrite G. apply ispar_cast; apply H.
  - constructor; [|constructor; [|constructor]]; unfold holds; cbn [first_text].
    + change (inner ++ rest (someb vs)) with (shape (Deep n vs)). rewrite F. apply (empty_list _ vs). apply H.
    + rewrite G. apply ispar_group. apply commas_inn. apply (okN_few n). apply H.
Qed.
Lemma an_done : forall n, okN n -> (deep n <= 256)%nat -> Closed (eval_names namesA) (called ev (textA (true, n))) (front n).
Proof.
  intros n Hn L. apply (jobs_done namesA _ textA (fun w => front (snd w)) nextA (fun w => okN (snd w)) (fun w => deep (snd w))) with (w := (true, n)).
  - intros [first [|v vs|p q vs|m vs]] H; cbn [snd nextA] in *; (constructor; [|constructor]).
    + exact (front_fits Void H).
    + exact (front_fits (Flat v vs) H).
    + exact (front_fits (Cast p q vs) H).
    + split; [apply H|cbn; lia].
  - intros [first m] H. cbn [snd] in H. unfold textA. cbn [fst snd]. apply s_walk_ok; [intro k; eapply fits_walk; apply vA_ok; [constructor|exact H]|].
    destruct m as [|v vs|p q vs|m vs]; [apply runA_none|exact (proj2 (runA_ok first IsPlain (someb vs)))|exact (proj2 (runA_ok first IsCast (someb vs)))|exact (proj2 (runA_ok first IsGroup (someb vs)))].
  - intros [first m] H. cbn [snd] in H. pose proof (holdsA [] m H) as E. pose proof (vA_ok [] m ltac:(constructor) H) as V. pose proof (flat_first [] m) as G. unfold textA. cbn [fst snd].
    destruct m as [|v vs|p q vs|m vs]; cbn [nextA snd flat_map].
    + exact (run_known kindF base _ namesA _ 60 _ _ V ltac:(vm_compute; reflexivity) E (proj1 (runA_none first))).
    + pose proof (run_known kindF base _ namesA _ 60 _ _ V ltac:(vm_compute; reflexivity) E (proj1 (runA_ok first IsPlain (someb vs)))) as C. cbn [first_text] in C. rewrite G in C. rewrite app_nil_r. exact C.
    + pose proof (run_known kindF base _ namesA _ 60 _ _ V ltac:(vm_compute; reflexivity) E (proj1 (runA_ok first IsCast (someb vs)))) as C. cbn [first_text] in C. rewrite G in C. rewrite app_nil_r. exact C.
    + pose proof (run_known kindF base _ namesA _ 60 _ _ V ltac:(vm_compute; reflexivity) E (proj1 (runA_ok first IsGroup (someb vs)))) as C.
      rewrite app_nil_r. cbn [fst]. rewrite (flat_pendA (vA [] m)), flat_shape. rewrite (flat_pendA _ false) in C. cbn [flat flat_map flat1 vA] in C. rewrite app_nil_r in C. exact C.
  - intros [first [|v vs|p q vs|m vs]] _; cbn; rewrite ?app_nil_r; reflexivity.
  - vm_compute. reflexivity.
  - exact Hn.
  - exact L.
Qed.

(** *** H2_An, H2_XAn, H2_YAn *)
Definition n_an : bytes := Eval vm_compute in str "H2_An".
Definition n_xan : bytes := Eval vm_compute in str "H2_XAn".
Definition n_yan : bytes := Eval vm_compute in str "H2_YAn".
Definition within : list bytes := Eval vm_compute in outsL ++ eval_names namesA.
Definition outsA : list bytes := Eval vm_compute in [str "H2_An"; str "H2_XAn"; str "H2_YAn"] ++ within.
Definition runT (pend : list stok) (eqs : list eqn) (s : list stok) : option (list stok) :=
  sk find (with40 kindF) (known within ((ev, pendA true pend, [O 40]) :: eqs)) outsA 60 true [] (map ST s).
Definition shapes_all : list (list stok) := [[]; [O 11]; [O 11; R TComma; O 17]; cast; cast ++ [R TComma; O 17]; inner; inner ++ [R TComma; O 17]].
Lemma runT_all : forallb (fun s => gives (runT s [] (call s n_an)) [O 40]) shapes_all && forallb (fun s => gives (runT s [(n_head, [O 15], s)] (call [O 15] n_xan)) [O 40] && gives (runT s [(n_last, [O 15], s)] (call [O 15] n_yan)) [O 40]) shapes_all = true.
Proof. vm_cast_no_check (eq_refl true). Qed.
Lemma shape_in : forall n, In (shape n) shapes_all.
Proof. intros [|v [|w vs]|p q [|w vs]|n [|w vs]]; cbn; auto 12. Qed.
Lemma no40_shape : forall n, forallb no40 (shape n) = true.
Proof. intros [|v [|w vs]|p q [|w vs]|n [|w vs]]; reflexivity. Qed.
Lemma top_any : forall all n eqs s, Forall value all -> okN n -> (deep n <= 256)%nat -> Forall (holds within (vA all n)) eqs -> forallb (fun e => forallb no40 (snd (fst e) ++ snd e)) eqs = true -> forallb no40 s = true ->
  gives (runT (shape n) eqs s) [O 40] = true -> Closed outsA (flat (vA all n) s) (front n).
Proof.
  intros all n eqs s Ha Hn L He Hq Hs G.
  pose proof (run_known (with40 kindF) within ((ev, pendA true (shape n), [O 40]) :: eqs) outsA (put40 (vA all n) (front n)) 60 s [O 40]
    (fits_put40 _ _ _ (vA_ok all n Ha Hn) (front_fits n Hn)) ltac:(vm_compute; reflexivity)) as C.
  rewrite flat_40, flat_put40 in C by exact Hs. apply C; [|exact G]. constructor.
  - unfold holds. rewrite flat_40, flat_pendA, flat_put40 by apply no40_shape. rewrite flat_shape. pose proof (an_done n Hn L) as D. unfold textA in D. cbn [fst snd] in D. rewrite flat_pendA, flat_shape in D.
    eapply closed_sub; [|exact D]. intros x I. apply has_in. revert x I. assert (A : forallb (fun x => has x within) (eval_names namesA) = true) by (vm_compute; reflexivity). rewrite forallb_forall in A. exact A.
  - apply Forall_forall. intros [[m b] r] I. rewrite Forall_forall in He. specialize (He _ I). rewrite forallb_forall in Hq. specialize (Hq _ I). cbn in Hq. rewrite forallb_app in Hq.
    apply andb_prop in Hq. destruct Hq as [N1 N2]. unfold holds in *. rewrite !flat_put40 by assumption. exact He.
Qed.
Lemma an_top : forall n, okN n -> (deep n <= 256)%nat -> Closed outsA (called n_an (commas (vals n))) (front n).
Proof.
  intros n Hn L. rewrite <- (flat_shape [] n), <- flat_call. apply top_any with (eqs := []); auto.
  - pose proof (no40_shape n) as N. unfold call. cbn [forallb no40 andb]. rewrite forallb_app, N. reflexivity.
  - pose proof runT_all as A. apply andb_prop in A. destruct A as [A _]. rewrite forallb_forall in A. apply A. apply shape_in.
Qed.
Lemma base_within : forall n, In n base -> In n within.
Proof. intros n I. apply has_in. revert n I. assert (A : forallb (fun x => has x within) base = true) by (vm_compute; reflexivity). rewrite forallb_forall in A. exact A. Qed.
Lemma outsL_within : forall n, In n outsL -> In n within.
Proof. intros n I. change within with (outsL ++ eval_names namesA). apply in_or_app. left. exact I. Qed.
Lemma xan_top : forall vs n, few vs -> okN n -> (deep n <= 256)%nat -> vals n = firstn 1 vs -> Closed outsA (called n_xan (commas vs)) (front n).
Proof.
  intros vs n F Hn L E. replace (commas vs) with (flat (vA vs n) [O 15]) by (destruct n; cbn; apply app_nil_r). rewrite <- flat_call. apply top_any with (eqs := [(n_head, [O 15], shape n)]); auto.
  - apply F.
  - constructor; [|constructor]. unfold holds. rewrite flat_shape, E. replace (flat (vA vs n) [O 15]) with (commas vs) by (destruct n; cbn; symmetry; apply app_nil_r).
    destruct vs as [|w ws]; [eapply closed_sub; [exact base_within|]; eapply closed_sub; [exact used_base|exact head_none]|]. eapply closed_sub; [exact base_within|]. exact (head_list w ws F).
  - pose proof (no40_shape n) as N. cbn [forallb fst snd app no40 andb Nat.eqb negb]. rewrite N. reflexivity.
  - pose proof runT_all as A. apply andb_prop in A. destruct A as [_ A]. rewrite forallb_forall in A. specialize (A _ (shape_in n)). apply andb_prop in A. exact (proj1 A).
Qed.
Lemma last_rev : forall (vs : list (list tok)), commas (firstn 1 (rev vs)) = lastly vs.
Proof. intro vs. unfold lastly. destruct vs as [|w vs] using rev_ind; [reflexivity|]. rewrite rev_app_distr, last_last. reflexivity. Qed.
Lemma yan_top : forall vs n, few vs -> okN n -> (deep n <= 256)%nat -> vals n = firstn 1 (rev vs) -> Closed outsA (called n_yan (commas vs)) (front n).
Proof.
  intros vs n F Hn L E. replace (commas vs) with (flat (vA vs n) [O 15]) by (destruct n; cbn; apply app_nil_r). rewrite <- flat_call. apply top_any with (eqs := [(n_last, [O 15], shape n)]); auto.
  - apply F.
  - constructor; [|constructor]. unfold holds. rewrite flat_shape, E, last_rev. replace (flat (vA vs n) [O 15]) with (commas vs) by (destruct n; cbn; symmetry; apply app_nil_r).
    eapply closed_sub; [exact outsL_within|]. exact (last_top vs F).
  - pose proof (no40_shape n) as N. cbn [forallb fst snd app no40 andb Nat.eqb negb]. rewrite N. reflexivity.
  - pose proof runT_all as A. apply andb_prop in A. destruct A as [_ A]. rewrite forallb_forall in A. specialize (A _ (shape_in n)). apply andb_prop in A. exact (proj2 A).
Qed.

(** *** the statements *)
Lemma countable_few : forall vs, MacroSpec2.countable vs -> few vs.
Proof. intros vs [H L]. split; [apply values_fit; exact H|exact L]. Qed.
Lemma nest_of : forall d vs v, MacroSpec2.foremost d vs v -> exists n, okN n /\ vals n = vs /\ front n = v /\ deep n = d.
Proof.
  induction 1 as [|v vs C P|d l v vs _ (n & Hn & E1 & E2 & E3) C].
  - exists Void. repeat split.
  - destruct P as [V N]. apply countable_few in C. pose proof V as [P _]. inversion P as [E|t r Hw Hr E|a r Ha Hr E]; subst v.
    + exfalso. apply (proj2 V). reflexivity.
    + exists (Flat (t :: r) vs). split; [split; [|exact C]|repeat split]. apply plain_fits. split; [exact V|]. cbn. intro X. injection X as ->. exact Hw.
    + exists (Cast a r vs). split; [|repeat split]. split; [apply text_fits; exact Ha|]. split; [|exact C]. apply value_fits. split; [exact Hr|]. intros ->. exact (N a Ha eq_refl).
  - exists (Deep n vs). apply countable_few in C. unfold MacroSpec.group in *. rewrite listed_commas in *. subst. split; [split; [exact Hn|exact C]|]. repeat split.
Qed.
Lemma an_becomes : forall d vs v, MacroSpec2.foremost d vs v -> (d <= 256)%nat -> MacroSpec.becomes (MacroSpec.macro_use (str "H2_An") vs) v.
Proof. intros d vs v H L. destruct (nest_of d vs v H) as (n & Hn & <- & <- & <-). rewrite use_called. exact (closed_becomes _ _ _ (an_top n Hn L)). Qed.
Lemma xan_becomes : forall d vs v, MacroSpec2.countable vs -> MacroSpec2.foremost d (firstn 1 vs) v -> (d <= 256)%nat -> MacroSpec.becomes (MacroSpec.macro_use (str "H2_XAn") vs) v.
Proof. intros d vs v C H L. destruct (nest_of _ _ v H) as (n & Hn & E & <- & <-). rewrite use_called. exact (closed_becomes _ _ _ (xan_top vs n (countable_few _ C) Hn L E)). Qed.
Lemma yan_becomes : forall d vs v, MacroSpec2.countable vs -> MacroSpec2.foremost d (firstn 1 (rev vs)) v -> (d <= 256)%nat -> MacroSpec.becomes (MacroSpec.macro_use (str "H2_YAn") vs) v.
Proof. intros d vs v C H L. destruct (nest_of _ _ v H) as (n & Hn & E & <- & <-). rewrite use_called. exact (closed_becomes _ _ _ (yan_top vs n (countable_few _ C) Hn L E)). Qed.
