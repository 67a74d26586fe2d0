(** Playing concrete histories, for the examples beside the theorems of P_Mem.v. *)
From Coq Require Import List NArith ZArith Bool Lia.
From Verif Require Import Base PieceModel PieceSpec MemModel MemSpec.
Import ListNotations.
Local Open Scope N_scope.

Section E.
Variable ps : N.
Variable ex : N -> bool.

Definition enabledb (st : state) (e : event) : bool :=
  match e with
  | Pop => match blocks st with [] => false | _ => true end
  | Alloc who size al fill bt base =>
      (size <? 2 ^ 52) &&
      match target ex st bt with
      | None => true
      | Some b =>
          let al' := if al =? 0 then a_align (b_attrs b) else al in
          (al' <? 2 ^ 32) && (0 <? base) && (base mod ps =? 0) && (guard ps base size al' + ps + al' <? 2 ^ 64) &&
          forallb (fun p => (guard ps base size al' + ps <=? p_page p) || (p_grd p + ps <=? base)) (flat_map b_pieces (blocks st))
      end
  | _ => true
  end.

Lemma enabledb_ok : forall st e, enabledb st e = true -> enabled ps ex st e.
Proof.
  intros st e H. destruct e as [a| |who size al fill bt base|who ptr|a bt|a v bt]; cbn [enabled enabledb] in *; auto.
  - destruct (blocks st); discriminate.
  - apply andb_true_iff in H. destruct H as [H1 H2]. apply N.ltb_lt in H1. split; auto.
    intros b Hb. rewrite Hb in H2. rewrite !andb_true_iff in H2. destruct H2 as ((((A & B) & C) & D) & E).
    apply N.ltb_lt in A, B, D. apply N.eqb_eq in C. cbv zeta. split; [exact A|]. split; [exact B|]. split; [exact C|]. split; [exact D|].
    intros b0 p Hb0 Hp. rewrite forallb_forall in E. specialize (E p). rewrite orb_true_iff, !N.leb_le in E. apply E.
    apply in_flat_map. eauto.
Qed.

Fixpoint play (tr : trace) (st : state) (es : list event) : option (trace * state) :=
  match es with
  | [] => Some (tr, st)
  | e :: r => if enabledb st e then match step ps ex st e with Some (st', o) => play ((e, o) :: tr) st' r | None => None end else None
  end.

Lemma play_history : forall es tr st tr' st', history ps ex tr st -> play tr st es = Some (tr', st') -> history ps ex tr' st'.
Proof.
  induction es as [|e es IH]; cbn [play]; intros tr st tr' st' H P.
  - injection P as <- <-. auto.
  - destruct (enabledb st e) eqn:En; [|discriminate]. destruct (step ps ex st e) as [[s o]|] eqn:S; [|discriminate].
    apply (IH _ _ _ _ (h_step ps ex _ _ _ _ _ H (enabledb_ok _ _ En) S) P).
Qed.
End E.

Definition ps0 : N := 4096.
Definition ex0 (bt : N) : bool := bt =? 99.
Definition st0 : state := init (fun _ => 0) 0.
Definition at0 : attrs := mkattrs 100 8 [] false.
Definition malloc (size bt page : N) : event := Alloc (str "malloc") size 0 None bt (page * 4096).
(** user pointer of the allocation of [size] bytes (not a multiple of the alignment trouble) in page [page] *)
Definition up (size page : N) : N := user_ptr 4096 (page * 4096) size 8.
Definition free (p : N) : event := Rel (str "free") p.
Definition delete (p : N) : event := Rel (str "delete") p.

(** a scope inside a scope; two allocations from one place, one from another, one from an exempted place; one released *)
Definition es1 : list event :=
  [Push default_attrs; malloc 30 5 10; Push at0; malloc 16 1 20; malloc 16 1 30; malloc 24 2 40; malloc 8 99 50; free (up 24 40)].
Definition played (es : list event) : option (trace * state) := play ps0 ex0 [] st0 es.

Lemma played_history : forall es tr st, played es = Some (tr, st) -> history ps0 ex0 tr st.
Proof. intros es tr st H. eapply play_history; [|exact H]. apply h_init. Qed.

(** trace and state after the events *)
Definition tr_of (es : list event) : trace := match played es with Some x => fst x | None => [] end.
Definition st_of (es : list event) : state := match played es with Some x => snd x | None => st0 end.
Lemma of_history : forall es, (match played es with Some _ => true | None => false end) = true -> history ps0 ex0 (tr_of es) (st_of es).
Proof.
  intros es H. unfold tr_of, st_of. destruct (played es) as [[tr st]|] eqn:E; [|discriminate]. exact (played_history es tr st E).
Qed.
Lemma ps0_pow2 : pow2 ps0.
Proof. exists 12. reflexivity. Qed.

Definition outcome_of (st : state) (e : event) : option outcome := option_map snd (step ps0 ex0 st e).
