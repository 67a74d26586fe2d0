(** Proofs about the preprocessor: the replacement of macros as a relation. *)
From Coq Require Import List NArith Bool Arith Lia.
From Verif Require Import Base MacroModel.
Import ListNotations.
Local Open Scope N_scope.

Lemma has_in : forall n l, has n l = true <-> In n l.
Proof.
  intros. unfold has. rewrite existsb_exists. split.
  - intros (x & H & E). apply bytes_eqb_eq in E. subst. exact H.
  - intro H. exists n. split; [exact H|apply bytes_eqb_refl].
Qed.
Lemma has_app : forall n a b, has n (a ++ b) = has n a || has n b.
Proof. intros. unfold has. apply existsb_app. Qed.
Lemma ends_app : forall a b, ends (a ++ b) = ends a ++ ends b.
Proof. induction a as [|[t|m] a IH]; intros; cbn; rewrite ?IH; reflexivity. Qed.
Lemma ends_toks : forall ts, ends (map Tok ts) = [].
Proof. induction ts; cbn; auto. Qed.

Section Rel.
Variable tb : list (bytes * macro).

Definition calm (t : tok) : Prop := match t with TId n false => lookup tb n = None | _ => True end.

Inductive Exp : list bytes -> list item -> list tok -> Prop :=
| E_nil off : Exp off [] []
| E_end off m r o : Exp off r o -> Exp off (End m :: r) o
| E_tok off t r o : calm t -> Exp off r o -> Exp off (Tok t :: r) (t :: o)
| E_blue off n m r o : lookup tb n = Some m -> disabled n off r = true -> Exp off r o -> Exp off (Tok (TId n false) :: r) (TId n true :: o)
| E_name off n m ps r o : lookup tb n = Some m -> disabled n off r = false -> params m = Some ps -> opening r = None -> Exp off r o ->
    Exp off (Tok (TId n false) :: r) (TId n false :: o)
| E_object off n m r b o : lookup tb n = Some m -> disabled n off r = false -> params m = None -> substitute [] [] [] None (body m) = Some b ->
    Exp off (map Tok b ++ End n :: r) o -> Exp off (Tok (TId n false) :: r) o
| E_call off n m ps r r1 args r2 qs acts full b o : lookup tb n = Some m -> disabled n off r = false -> params m = Some ps -> opening r = Some r1 ->
    collect tb off (variadic m) (if variadic m then length ps else Nat.pred (length ps)) O [] r1 = Some (args, r2) ->
    arrange ps (variadic m) args = Some (qs, acts) ->
    Exps (off ++ ends r2) (body m) (combine qs acts) full -> substitute qs acts full None (body m) = Some b ->
    Exp off (map Tok b ++ End n :: r2) o -> Exp off (Tok (TId n false) :: r) o
with Exps : list bytes -> list tok -> list (bytes * list tok) -> list (list tok) -> Prop :=
| Es_nil off b : Exps off b [] []
| Es_skip off b q a l full : plain_use q false b = false -> Exps off b l full -> Exps off b ((q, a) :: l) ([] :: full)
| Es_cons off b q a o l full : plain_use q false b = true -> Exp off (map Tok a) o -> Exps off b l full -> Exps off b ((q, a) :: l) (o :: full).

Scheme Exp_mut := Minimality for Exp Sort Prop with Exps_mut := Minimality for Exps Sort Prop.

(** one round of [expand] *)
Definition round (f : nat) (off : list bytes) : list item -> option (list tok) :=
    fix scan (s : list item) : option (list tok) :=
       match s with
       | [] => Some []
       | End _ :: r => scan r
       | Tok t :: r =>
         match t with
         | TId n false =>
           match lookup tb n with
           | None => option_map (cons t) (scan r)
           | Some m =>
             if disabled n off r then option_map (cons (TId n true)) (scan r)
             else match params m with
                  | None => match substitute [] [] [] None (body m) with
                            | Some b => expand tb f off (map Tok b ++ End n :: r)
                            | None => None
                            end
                  | Some ps =>
                    match opening r with
                    | None => option_map (cons t) (scan r)
                    | Some r1 =>
                      match collect tb off (variadic m) (if variadic m then length ps else Nat.pred (length ps)) O [] r1 with
                      | None => None
                      | Some (args, r2) =>
                        match arrange ps (variadic m) args with
                        | None => None
                        | Some (qs, acts) =>
                          match all_some (fun qa => if plain_use (fst qa) false (body m) then expand tb f (off ++ ends r2) (map Tok (snd qa)) else Some []) (combine qs acts) with
                          | None => None
                          | Some full =>
                            match substitute qs acts full None (body m) with
                            | Some b => expand tb f off (map Tok b ++ End n :: r2)
                            | None => None
                            end
                          end
                        end
                      end
                    end
                  end
           end
         | _ => option_map (cons t) (scan r)
         end
       end.
Lemma expand_round : forall f off s, expand tb (S f) off s = round f off s.
Proof. reflexivity. Qed.

Lemma all_some_mono : forall {A B} (f g : A -> option B) l o, (forall a b, f a = Some b -> g a = Some b) -> all_some f l = Some o -> all_some g l = Some o.
Proof.
  intros A B f g. induction l as [|a l IH]; intros o H E; cbn in *; [exact E|].
  destruct (f a) eqn:Ef; [|discriminate]. destruct (all_some f l) eqn:El; [|discriminate]. rewrite (H _ _ Ef), (IH _ H eq_refl). exact E.
Qed.

Lemma round_mono : forall f g off, (forall off s o, expand tb f off s = Some o -> expand tb g off s = Some o) ->
  forall s o, round f off s = Some o -> round g off s = Some o.
Proof.
  intros f g off Hfg. induction s as [|[t|m] s IH]; intros o E; [exact E| |cbn in *; auto].
  assert (keep : forall x, option_map (cons x) (round f off s) = Some o -> option_map (cons x) (round g off s) = Some o).
  { intros x Ex. destruct (round f off s) eqn:Er; [|discriminate]. rewrite (IH _ eq_refl). exact Ex. }
  cbn [round] in E |- *. fold (round f off) in E. fold (round g off).
  destruct t as [n [|]|d| | | |x]; auto.
  destruct (lookup tb n) as [m|]; auto. destruct (disabled n off s); auto.
  destruct (params m) as [ps|].
  - destruct (opening s) as [r1|]; auto.
    destruct (collect _ _ _ _ _ _ _) as [[args r2]|]; [|discriminate]. destruct (arrange _ _ _) as [[qs acts]|]; [|discriminate].
    destruct (all_some _ _) as [full|] eqn:Ea; [|discriminate].
    erewrite all_some_mono; [|intros a b Hab|exact Ea].
    + destruct (substitute _ _ _ _ _); [|discriminate]. apply Hfg. exact E.
    + cbv beta in Hab |- *. destruct (plain_use _ _ _); [apply Hfg|]; exact Hab.
  - destruct (substitute _ _ _ _ _); [|discriminate]. apply Hfg. exact E.
Qed.
Lemma expand_S : forall f off s o, expand tb f off s = Some o -> expand tb (S f) off s = Some o.
Proof.
  induction f as [|f IH]; intros off s o E; [discriminate|]. rewrite expand_round in E |- *. eapply round_mono; [exact IH|exact E].
Qed.
Lemma expand_mono : forall f g off s o, (f <= g)%nat -> expand tb f off s = Some o -> expand tb g off s = Some o.
Proof. intros f g off s o L E. induction L; [exact E|apply expand_S; exact IHL]. Qed.
Lemma round_le : forall f g off s o, (f <= g)%nat -> round f off s = Some o -> round g off s = Some o.
Proof. intros f g off s o L. rewrite <- !expand_round. apply expand_mono. lia. Qed.

Lemma Exp_expand : forall off s o, Exp off s o -> exists f, expand tb (S f) off s = Some o.
Proof.
  apply (Exp_mut (fun off s o => exists f, expand tb (S f) off s = Some o)
    (fun off b l full => exists f, all_some (fun qa => if plain_use (fst qa) false b then expand tb f off (map Tok (snd qa)) else Some []) l = Some full)).
  - intros. exists O. reflexivity.
  - intros off m r o _ [f IH]. exists f. exact IH.
  - intros off t r o C _ [f IH]. exists f. rewrite expand_round in *. cbn [round]. fold (round f off). rewrite IH.
    destruct t as [n [|]|d| | | |x]; try reflexivity. cbn in C. rewrite C. reflexivity.
  - intros off n m r o L D _ [f IH]. exists f. rewrite expand_round in *. cbn [round]. fold (round f off). rewrite L, D, IH. reflexivity.
  - intros off n m ps r o L D P Op _ [f IH]. exists f. rewrite expand_round in *. cbn [round]. fold (round f off). rewrite L, D, P, Op, IH. reflexivity.
  - intros off n m r b o L D P Sb _ [f IH]. exists (S f). rewrite (expand_round (S f)). cbn [round]. rewrite L, D, P, Sb. exact IH.
  - intros off n m ps r r1 args r2 qs acts full b o L D P Op C A _ [f IHs] Sb _ [g IH]. exists (S (f + g)). rewrite (expand_round (S (f + g))). cbn [round].
    rewrite L, D, P, Op, C, A. erewrite all_some_mono; [|intros qa x Hx|exact IHs].
    + rewrite Sb. eapply expand_mono; [|exact IH]. lia.
    + cbv beta in Hx |- *. destruct (plain_use _ _ _); [|exact Hx]. eapply expand_mono; [|exact Hx]. lia.
  - intros. exists O. reflexivity.
  - intros off b q a l full P _ [f IH]. exists f. cbn. rewrite P, IH. reflexivity.
  - intros off b q a o l full P _ [f IH1] _ [g IH2]. exists (S (f + g)). cbn [all_some fst snd]. rewrite P.
    rewrite (expand_mono (S f) (S (f + g)) _ _ _ ltac:(lia) IH1). erewrite all_some_mono; [| |exact IH2]; [reflexivity|].
    intros qa x Hx. cbv beta in Hx |- *. destruct (plain_use (fst qa) false b); [|exact Hx]. eapply expand_mono; [|exact Hx]. lia.
Qed.
Lemma Exp_all : forall s o, Exp [] (map Tok s) o -> exists f, forall g, (f <= g)%nat -> expand tb g [] (map Tok s) = Some o.
Proof. intros s o H. apply Exp_expand in H. destruct H as [f H]. exists (S f). intros g L. eapply expand_mono; [exact L|exact H]. Qed.
End Rel.
