From Coq Require Import List ZArith NArith Bool Arith Permutation Sorted Lia.
From Verif Require Import Base OrderModel OrderSpec OrderProofs OrderSpec2.
Import ListNotations.
Local Open Scope Z_scope.

Lemma seq_decided : decided cmp_seq seq_le seq_tie.
Proof.
  constructor; unfold cmp_seq, seq_le, seq_tie; intros; try lia.
Qed.
Lemma rand_cases_drawn : forall r cs i s s' cs' i', rand_cases r i s cs = (s', cs', i') ->
  map (fun c => o_seq (ct c)) cs' = map r (seq i (length cs)) /\ i' = (i + length cs)%nat /\ o_seq s' = last (map (fun c => o_seq (ct c)) cs') (o_seq s).
Proof.
  induction cs as [|c cs IH]; intros i s s' cs' i' E; cbn [rand_cases] in E.
  - injection E as <- <- <-. cbn. repeat split. lia.
  - destruct (rand_cases r (S i) (set_seq s (r i)) cs) as ((s1, cs1), i1) eqn:X. injection E as <- <- <-. destruct (IH _ _ _ _ _ X) as (A & B & C).
    cbn [map length seq ct set_seq o_seq]. rewrite A. split; [reflexivity|]. split; [lia|]. rewrite C, A. cbn [set_seq o_seq].
    generalize (map r (seq (S i) (length cs))). intros l. destruct l as [|z l]; [reflexivity|].
    change (last (z :: l) (r i) = last (z :: l) (o_seq s)). revert z. induction l as [|y l IHl]; intros z; [reflexivity|]. exact (IHl y).
Qed.
Lemma rand_suites_drawn : forall r ss i,
  map (fun c => o_seq (ct c)) (flat_map u_cases (rand_suites r i ss)) = map r (seq i (length (flat_map u_cases ss))) /\
  forall m, In m (rand_suites r i ss) -> forall pre c, u_cases m = pre ++ [c] -> o_seq (st m) = o_seq (ct c).
Proof.
  induction ss as [|s ss IH]; intros i; cbn [rand_suites].
  - split; [reflexivity|]. intros m [].
  - destruct (rand_cases r i (st s) (u_cases s)) as ((t, cs), i1) eqn:X. destruct (rand_cases_drawn _ _ _ _ _ _ _ X) as (A & -> & C). destruct (IH (i + length (u_cases s))%nat) as (D & E). split.
    + cbn [flat_map u_cases]. rewrite map_app, A, D, app_length, seq_app, map_app. reflexivity.
    + intros m [<-|I] pre c Q; [|exact (E m I pre c Q)]. cbn [u_cases st] in *. rewrite C, Q, map_app. cbn [map]. apply last_last.
Qed.
Lemma kept_strings : forall ss mid, Forall2 kept ss mid -> c_strings ss -> c_strings mid.
Proof.
  intros ss mid K CS t (m & I & T).
  assert (exists s, In s ss /\ kept s m) as (s & Is & (K1 & K2)).
  { clear CS T. induction K; [contradiction|]. destruct I as [<-|I]; [exists x; split; [left; reflexivity|assumption]|]. destruct (IHK I) as (s & ? & ?). exists s. split; [right; assumption|assumption]. }
  destruct T as [->|T].
  - destruct K1 as (_ & <- & <- & _). apply CS. exists s. auto.
  - apply in_map_iff in T. destruct T as (c & <- & Ic).
    assert (exists c0, In c0 (u_cases s) /\ same_case c0 c) as (c0 & I0 & ((_ & <- & <- & _) & _)).
    { clear - K2 Ic. induction K2; [contradiction|]. destruct Ic as [<-|Ic]; [exists x; split; [left; reflexivity|assumption]|]. destruct (IHK2 Ic) as (z & ? & ?). exists z. split; [right; assumption|assumption]. }
    apply CS. exists s. split; auto. right. apply in_map. exact I0.
Qed.
Lemma shuffle_random : forall o r k ss, sh_random o = true -> c_strings ss ->
  exists mid ss', drawn r ss mid /\ shuffle o r None k ss = Some (ss', O) /\
    all_sorted_by (fun a b => if sh_reverse o then mode_le o b a else mode_le o a b) (mode_tie o) mid ss'.
Proof.
  intros o r k ss R CS. exists (rand_suites r 0 ss). pose proof (rand_suites_kept r ss 0) as K. eexists. split; [|split].
  - destruct (rand_suites_drawn r ss 0) as (A & B). split; [|split; assumption]. exact K.
  - unfold shuffle. cbn [find_all fold_left length Nat.eqb negb]. unfold sh_any. rewrite R. reflexivity.
  - pose proof (kept_strings _ _ K CS) as CM. unfold cmp_opt, mode_le, mode_tie.
    assert (D : forall cmp le tie, decided cmp le tie -> all_sorted_by (fun a b => if sh_reverse o then le b a else le a b) tie (rand_suites r 0 ss) (sort_all (fun a b => cmp a b * (if sh_reverse o then -1 else 1)) (rand_suites r 0 ss))).
    { intros cmp le tie D. destruct (sh_reverse o); [apply (sort_all_decided _ _ _ _ (flip_decided _ _ _ D) CM)|apply (sort_all_decided _ _ _ _ (mul1_decided _ _ _ D) CM)]. }
    destruct (sh_name o); [apply (D _ _ _ name_decided)|]. destruct (sh_file o); [apply (D _ _ _ file_decided)|apply (D _ _ _ seq_decided)].
Qed.
