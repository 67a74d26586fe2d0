From Coq Require Import String List NArith Bool Arith Lia.
From Verif Require Import Base OptionModel OptionSpec OptionProofs OptionProofs2 UsageModel UsageSpec.
Import ListNotations.
Local Open Scope N_scope.
Local Open Scope list_scope.

Definition the_rows : list (bytes * bytes * bytes) := Eval vm_compute in rows (10 :: concat table_rows).
Definition the_body : list bytes := Eval vm_compute in body (10 :: concat table_rows).
Lemma cut_line : forall a t, ~ In 10 a -> cut 10 (a ++ 10 :: t) = a :: cut 10 t.
Proof.
  induction a as [|c a IH]; intros t H; [reflexivity|]. cbn [app cut]. destruct (c =? 10) eqn:E; [apply N.eqb_eq in E; subst; exfalso; apply H; left; reflexivity|].
  rewrite IH by (intros F; apply H; right; exact F). reflexivity.
Qed.
Lemma head_line : forall v d r, one_line v d r -> exists a, headline v d r = a ++ [10] /\ ~ In 10 a.
Proof.
  intros v d r O. exists (text " ~[32mh₂unit~[0m ~[90mv~[0m" ++ v ++ text "  ~[90m" ++ d ++ text "~[0m  ~[90m" ++ r ++ text "~[0m"). split.
  - unfold headline. rewrite <- !app_assoc. do 6 f_equal.
  - unfold one_line in O. rewrite !in_app_iff in *. intros F. repeat destruct F as [F|F]; try tauto; vm_compute in F; repeat destruct F as [F|F]; try discriminate; auto.
Qed.
Lemma string_head : forall rest t q, extract_string rest = Some (t, q) -> t = hd [] rest.
Proof.
  intros [|a l] t q X; [discriminate|]. destruct (dash_case a) as [(b & ->)|U]; [discriminate|]. rewrite string_undashed in X by exact U. injection X as <- <-. reflexivity.
Qed.
Lemma help_table : forall v d r rest, ~ In (hd [] rest) topics -> help v d r rest = Some (headline v d r ++ concat table_rows).
Proof.
  intros v d r rest T. unfold help, usage.
  assert (E : printf0 (concat table_rows) = Some (concat table_rows)) by (unfold printf0; replace (existsb (N.eqb 37) (concat table_rows)) with false by (vm_compute; reflexivity); reflexivity).
  rewrite E. destruct (extract_string rest) as [[t q]|] eqn:X; [|reflexivity].
  assert (H : t = hd [] rest) by exact (string_head rest t q X).
  subst t. set (h := hd [] rest) in *. clearbody h.
  assert (N : forall w, In w topics -> bytes_eqb w h = false). { intros w I. destruct (bytes_eqb w h) eqn:B; auto. apply bytes_eqb_eq in B. subst. contradiction. }
  rewrite !N by (unfold topics; cbn [In]; auto). reflexivity.
Qed.
Lemma help_fields : forall v d r t rest, In t [str "i"; str "e"] -> help v d r (t :: rest) = Some (concat patterns_rows).
Proof. intros v d r t rest [<-|[<-|[]]]; vm_compute; reflexivity. Qed.
Lemma help_warnings : forall v d r rest, help v d r (str "W" :: rest) = Some (concat warnings_rows).
Proof. intros. vm_compute. reflexivity. Qed.
Lemma prints : forall v d r rest, exists p, help v d r rest = Some p.
Proof.
  intros v d r rest. destruct (in_dec (list_eq_dec N.eq_dec) (hd [] rest) topics) as [I|I]; [|rewrite help_table by exact I; eauto].
  destruct rest as [|a l]; [exfalso; destruct I as [I|[I|[I|[]]]]; discriminate I|]. cbn [hd] in I. destruct I as [<-|[<-|[<-|[]]]].
  - rewrite help_fields by (left; reflexivity). eauto.
  - rewrite help_fields by (right; left; reflexivity). eauto.
  - rewrite help_warnings. eauto.
Qed.
Lemma table_body : forall v d r rest p, table v d r rest p -> body p = the_body.
Proof.
  intros v d r rest p (O & T & H). rewrite help_table in H by exact T. clear T.
  assert (B : forall t, body (headline v d r ++ t) = map (uncoloured false) (removelast (cut 10 t))).
  { intros t. destruct (head_line v d r O) as (a & -> & F). rewrite <- app_assoc. cbn [app]. unfold body. rewrite cut_line by exact F. reflexivity. }
  transitivity (map (uncoloured false) (removelast (cut 10 (concat table_rows)))); [|vm_compute; reflexivity].
  revert H. generalize (concat table_rows). intros t H. rewrite <- B. injection H as <-. reflexivity.
Qed.
Lemma table_rows_are : forall v d r rest p, table v d r rest p -> rows p = the_rows.
Proof. intros. unfold rows. erewrite table_body by eassumption. vm_compute. reflexivity. Qed.
Lemma shape : forall v d r rest p, table v d r rest p -> forall l, In l (body p) -> width l = 80%nat.
Proof. intros v d r rest p T l. erewrite table_body by eassumption. intros I. assert (A : forallb (fun l => Nat.eqb (width l) 80) the_body = true) by (vm_compute; reflexivity). rewrite forallb_forall in A. apply Nat.eqb_eq, A, I. Qed.
