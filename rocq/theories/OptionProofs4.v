From Coq Require Import List NArith Bool Arith Lia.
From Verif Require Import Base OptionModel OptionSpec OptionSpec2 OptionProofs.
Import ListNotations.
Local Open Scope N_scope.

Lemma join_length : forall l, (length (join (str " | ") (map (fun s => coloured 32 s) l)) = list_sum (map (fun s => length s + 9) l) + 3 * (length l - 1))%nat.
Proof.
  assert (C : forall s, length (coloured 32 s) = (length s + 9)%nat) by (intros; unfold coloured; rewrite !app_length; cbn; lia).
  induction l as [|a l IH]; [reflexivity|]. destruct l as [|b l].
  - cbn [map join list_sum fold_right length]. rewrite C. cbn. lia.
  - change (join (str " | ") (map (fun s => coloured 32 s) (a :: b :: l))) with (coloured 32 a ++ str " | " ++ join (str " | ") (map (fun s => coloured 32 s) (b :: l))).
    rewrite !app_length, C, IH. change (length (str " | ")) with 3%nat. cbn [map]. unfold list_sum at 2. cbn [fold_right]. fold (list_sum (map (fun s : bytes => (length s + 9)%nat) l)). unfold list_sum at 1. cbn [fold_right]. fold (list_sum (map (fun s : bytes => (length s + 9)%nat) l)). cbn [length]. lia.
Qed.
Lemma message_length : forall amb w l, length (message amb w l) = error_length amb w l.
Proof.
  intros amb w l. unfold message, error_length. rewrite !app_length, join_length. unfold coloured. rewrite !app_length. destruct amb; cbn [length str map list_sum fold_right]; cbn; lia.
Qed.
Lemma candidate_fits : forall w l, (length l <= 32)%nat ->
  (candidate w l = CandUndefined <-> (forall n, ~ abbrev l w n) /\ exists amb listed, refusal w l amb listed /\ (1024 <= length (message amb w listed))%nat).
Proof.
  intros w l L. unfold candidate. assert (E : (32 <? length l)%nat = false) by (apply Nat.ltb_ge; exact L). rewrite E.
  assert (R : forall amb listed, refusal w l amb listed <-> amb = existsb (begins w) l /\ listed = if amb then filter (begins w) l else l).
  { intros amb listed. unfold refusal. split.
    - intros [(-> & -> & F)|(-> & (x & I & P) & S)].
      + split; [|reflexivity]. symmetry. rewrite Forall_forall in F. apply not_true_is_false. intros X. apply existsb_exists in X. destruct X as (x & I & B). apply begins_ok in B. exact (F x I B).
      + split; [symmetry; apply existsb_exists; exists x; split; [exact I|apply begins_ok; exact P]|]. clear - S. induction S; cbn [filter]; [reflexivity| |].
        * replace (begins w a) with true by (symmetry; apply begins_ok; assumption). f_equal. exact IHS.
        * replace (begins w a) with false by (symmetry; apply begins_no; assumption). exact IHS.
    - intros (-> & ->). destruct (existsb (begins w) l) eqn:X.
      + right. split; [reflexivity|]. split; [apply existsb_exists in X; destruct X as (x & I & B); exists x; split; [exact I|apply begins_ok; exact B]|].
        clear. induction l as [|a l IH]; cbn [filter]; [constructor|]. destruct (begins w a) eqn:B; constructor; auto; [apply begins_ok; exact B|apply begins_no; exact B].
      + left. split; [reflexivity|]. split; [reflexivity|]. apply Forall_forall. intros x I P. apply begins_ok in P. assert (existsb (begins w) l = true) by (apply existsb_exists; eauto). congruence. }
  assert (X : existsb (begins w) l = match filter (begins w) l with [] => false | _ => true end).
  { clear. induction l as [|a l IH]; [reflexivity|]. cbn [existsb filter]. destruct (begins w a); [reflexivity|exact IH]. }
  destruct (filter (begins w) l) as [|m [|m2 ms]] eqn:F.
  - split.
    + destruct (1024 <=? error_length false w l)%nat eqn:G; [|discriminate]. intros _. split.
      * intros n A. apply filter_abbrev in A. rewrite F in A. discriminate.
      * exists false, l. split; [apply R; rewrite X; split; reflexivity|]. rewrite message_length. apply Nat.leb_le. exact G.
    + intros (_ & amb & listed & Q & G). apply R in Q. destruct Q as (-> & ->). rewrite X in G. rewrite message_length in G. apply Nat.leb_le in G. rewrite G. reflexivity.
  - split; [discriminate|]. intros (N & _). exfalso. apply (N m). apply filter_abbrev. exact F.
  - split.
    + destruct (1024 <=? error_length true w (m :: m2 :: ms))%nat eqn:G; [|discriminate]. intros _. split.
      * intros n A. apply filter_abbrev in A. rewrite F in A. discriminate.
      * exists true, (m :: m2 :: ms). split; [apply R; rewrite X; split; reflexivity|]. rewrite message_length. apply Nat.leb_le. exact G.
    + intros (_ & amb & listed & Q & G). apply R in Q. destruct Q as (-> & ->). rewrite X in G. rewrite message_length in G. apply Nat.leb_le in G. rewrite G. reflexivity.
Qed.
