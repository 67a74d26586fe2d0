(** Computable checks used to exhibit concrete histories. *)
From Coq Require Import List NArith ZArith Bool Lia.
From Verif Require Import StubModel StubSpec.
Import ListNotations.
Local Open Scope N_scope.

Definition apartb (a b : N) : bool := (a =? b) || (a + 12 <=? b) || (b + 12 <=? a).
Definition allowedb (st : state) (e : event) : bool :=
  match e with
  | Add _ src dst => (dst <? 2 ^ 64) && (follow st src <? 2 ^ 64) && forallb (fun x => apartb (t_source (snd x)) (follow st src)) (stubs st)
  | _ => true
  end.
Lemma allowedb_ok : forall st e, allowedb st e = true -> allowed st e.
Proof.
  intros st e H. destruct e as [scope src dst| |]; cbn [allowedb allowed] in *; auto. apply andb_true_iff in H. destruct H as [H H3].
  apply andb_true_iff in H. destruct H as [H1 H2]. apply N.ltb_lt in H1, H2. split; [auto|split; auto].
  intros fp (sc & t & T & <-). rewrite forallb_forall in H3. specialize (H3 _ T). unfold apartb in H3. cbn [snd] in H3.
  rewrite !orb_true_iff, N.eqb_eq, !N.leb_le in H3. unfold apart. tauto.
Qed.
Fixpoint runb (st : state) (es : list event) : bool :=
  match es with [] => true | e :: r => allowedb st e && runb (step st e) r end.
Definition run (st : state) (es : list event) : state := fold_left step es st.
Lemma run_reach : forall m es st, reach m st -> runb st es = true -> reach m (run st es).
Proof.
  induction es as [|e es IH]; cbn [runb run fold_left]; intros st R H; auto. apply andb_true_iff in H. destruct H as [H1 H2].
  apply IH; auto. apply r_step; auto. apply allowedb_ok. auto.
Qed.

(** nested scripts *)
Inductive action := Open | Close | Put (src dst : N) | Drop (src : N).
Definition act (a : action) (fs : list frame) (st : state) : option (list frame * state) :=
  match a, fs with
  | Open, _ => Some ([] :: fs, st)
  | Close, _ :: r => Some (r, step st (ClearAll (N.of_nat (length r))))
  | Put src dst, f :: r =>
      if allowedb st (Add (N.of_nat (length r)) src dst) &&
         forallb (fun e => negb (ent_fp e =? follow st src) || (ent_src e =? src)) f
      then Some (frame_set f src (follow st src) dst :: r, step st (Add (N.of_nat (length r)) src dst)) else None
  | Drop src, f :: r => Some (frame_remove f src :: r, step st (Clear (N.of_nat (length r)) src))
  | _, [] => None
  end.
Fixpoint script (as_ : list action) (fs : list frame) (st : state) : option (list frame * state) :=
  match as_ with [] => Some (fs, st) | a :: r => match act a fs st with None => None | Some (fs', st') => script r fs' st' end end.
Lemma script_nested : forall m as_ fs st fs' st', nested m fs st -> script as_ fs st = Some (fs', st') -> nested m fs' st'.
Proof.
  induction as_ as [|a as_ IH]; cbn [script]; intros fs st fs' st' H E; [injection E as <- <-; auto|].
  destruct (act a fs st) as [[fs1 st1]|] eqn:A; [|discriminate]. apply (IH fs1 st1); auto. clear IH E.
  destruct a as [| |src dst|src]; cbn [act] in A.
  - injection A as <- <-. constructor. auto.
  - destruct fs as [|f r]; [discriminate|]. injection A as <- <-. apply n_close with (f := f). auto.
  - destruct fs as [|f r]; [discriminate|]. destruct (allowedb _ _ && _) eqn:B; [|discriminate]. injection A as <- <-.
    apply andb_true_iff in B. destruct B as [B1 B2]. apply n_add; auto; [apply allowedb_ok; auto|].
    intros e He Ee. rewrite forallb_forall in B2. specialize (B2 _ He). apply orb_true_iff in B2. rewrite negb_true_iff, N.eqb_neq, N.eqb_eq in B2. tauto.
  - destruct fs as [|f r]; [discriminate|]. injection A as <- <-. apply n_clear. auto.
Qed.

Definition frames_of (o : option (list frame * state)) : list frame := match o with Some (fs, _) => fs | None => [] end.
Definition state_of (o : option (list frame * state)) (m : mem) : state := match o with Some (_, st) => st | None => mkstate m [] [] end.
Definition is_some {A} (o : option A) : bool := match o with Some _ => true | None => false end.
Lemma script_from : forall m as_, is_some (script as_ [] (mkstate m [] [])) = true ->
  nested m (frames_of (script as_ [] (mkstate m [] []))) (state_of (script as_ [] (mkstate m [] [])) m).
Proof.
  intros m as_ H. destruct (script as_ [] (mkstate m [] [])) as [[fs st]|] eqn:E; [|discriminate]. cbn. apply (script_nested m as_ [] (mkstate m [] [])); auto. constructor.
Qed.

(** code: "push %rbp; mov %rsp,%rbp; nop ..." everywhere, except an import stub "jmp" at 0x500 leading to 0x1000 *)
Definition alias_at := 0x500.
Definition m0 : mem := fun x =>
  if (alias_at <=? x) && (x <? alias_at + 5) then nth (N.to_nat (x - alias_at)) [0xE9; 0xFB; 0x0A; 0; 0] 0
  else match x mod 4 with 0 => 0x55 | 1 => 0x48 | 2 => 0x89 | _ => 0xE5 end.
Definition s0 : state := mkstate m0 [] [].
Definition ex18 := [Add 0 0x1000 0x9000; Add 1 alias_at 0xA000; Add 0 0x1000 0x7f0000000000; Add 1 0x2000 0xB000;
  Clear 0 0x1000; ClearAll 1].
Definition ex19 := [Open; Put 0x1000 0x9000; Put 0x2000 0x9100; Open; Put alias_at 0xA000; Put alias_at 0xA100; Open; Put 0x1000 0xB000; Drop 0x3000].
