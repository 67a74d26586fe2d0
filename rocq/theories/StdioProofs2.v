(** Captures that have ended, and the count of bytes shown. *)
From Coq Require Import List NArith ZArith Bool Arith Lia.
From Verif Require Import Base StrModel StdioModel StdioSpec StdioProofs.
Import ListNotations.
Local Open Scope N_scope.

Lemma says_nothing l x : says_all (fun _ => False) l x -> x = [].
Proof.
  induction 1 as [|o x l y H _ IH]; [reflexivity|]. subst y. rewrite app_nil_r. destruct H as [o ws x NS W P|t x C F|t F]; [|contradiction|reflexivity].
  clear - P. induction P; [reflexivity|contradiction|assumption].
Qed.
Lemma c_str_nul b : c_str ((b ++ [0]) ++ [0]) = c_str (b ++ [0]).
Proof. induction b as [|c b IH]; [reflexivity|]. cbn [app c_str]. destruct (c =? 0); [reflexivity|]. rewrite IH. reflexivity. Qed.
Lemma ended normal l s : Forall plain l -> Forall sound l -> exists text rs, snd (run normal (End_ :: l ++ [End_]) s) = Text text :: rs ++ [Text text].
Proof.
  intros P S0. cbn [run]. destruct (step normal End_ s) as [s1 r1] eqn:E1. rewrite run_app.
  destruct (run_says normal (fun _ => False) l s1 P S0) as (x & X & B & _). { intro ch. cbn [step] in E1. injection E1 as <- <-. split; [contradiction|]. destruct ch; discriminate. }
  apply says_nothing in X. subst x. rewrite app_nil_r in B. destruct (run normal l s1) as [s2 r2]. cbn [fst] in B. cbn [run step snd]. cbn [step] in E1. injection E1 as <- <-. cbn [buffer] in B. rewrite B.
  exists (c_str (buffer s ++ [0])), r2. rewrite c_str_nul. reflexivity.
Qed.
(** bytes of the user among writes *)
Lemma many_count normal ws s : capture_length (many normal ws s) = (capture_length s + (if normal then list_sum (map (fun w => length (snd w)) (filter (fun w => is_user (fst w)) ws)) else 0))%nat.
Proof.
  revert s. induction ws as [|(fd, b) ws IH]; intro s; cbn [many filter map list_sum].
  - destruct normal; cbn; lia.
  - rewrite IH. assert (E : capture_length (write normal fd b s) = (capture_length s + (if normal && is_user fd then length b else 0))%nat).
    { unfold write, take. change ((fd =? 1)%Z || (fd =? 2)%Z) with (is_user fd).
      assert (T : capture_length (if normal || negb (is_user fd) then pass fd b s else s) = (capture_length s + (if normal && is_user fd then length b else 0))%nat).
      { unfold pass. change ((fd =? 1)%Z || (fd =? 2)%Z) with (is_user fd). destruct normal, (is_user fd); cbn; lia. }
      revert T. generalize (if normal || negb (is_user fd) then pass fd b s else s). intros t T. destruct (_ || _); cbn [capture_length]; exact T. }
    rewrite E. cbn [fst]. destruct normal, (is_user fd); cbn [andb map snd]; try lia. match goal with |- context [list_sum (length b :: ?x)] => change (list_sum (length b :: x)) with (length b + list_sum x)%nat end. lia.
Qed.
Definition other (o : op) : bool := match o with Begin _ | End_ => false | _ => true end.
Lemma run_count normal l s ws : writes_all (filter other l) ws ->
  capture_length (fst (run normal l s)) = (capture_length s + (if normal then list_sum (map (fun w => length (snd w)) (filter (fun w => is_user (fst w)) ws)) else 0))%nat.
Proof.
  revert s ws. induction l as [|o l IH]; intros s ws W; [inversion W; subst; destruct normal; cbn; lia|].
  assert (TR : fst (run normal (o :: l) s) = fst (run normal l (fst (step normal o s)))) by (cbn [run]; destruct (step normal o s) as [s1 r1]; cbn [fst]; destruct (run normal l s1); reflexivity). rewrite TR.
  destruct (other o) eqn:O; cbn [filter] in W; rewrite O in W.
  - inversion W as [|? x ? y Wo Wl]. subst. rewrite (IH _ _ Wl).
    assert (E : capture_length (fst (step normal o s)) = (capture_length s + (if normal then list_sum (map (fun w => length (snd w)) (filter (fun w => is_user (fst w)) x)) else 0))%nat).
    { assert (NS : (exists t, o = Syslog t) \/ forall t, o <> Syslog t) by (destruct o; try (right; discriminate); left; eauto). destruct NS as [[t ->]|NS].
      - inversion Wo. subst. cbn [step fst filter map]. change (list_sum []) with 0%nat. destruct (log_on s), normal; cbn [capture_length]; lia.
      - rewrite (step_many normal o s x Wo NS), many_count. f_equal. destruct o; reflexivity. }
    rewrite E. rewrite filter_app, map_app, list_sum_app. destruct normal; lia.
  - rewrite (IH _ _ W). f_equal. destruct o; try discriminate; reflexivity.
Qed.
Lemma user_count ws n : shown_bytes ws n -> n = list_sum (map (fun w => length (snd w)) (filter (fun w => is_user (fst w)) ws)).
Proof.
  induction 1 as [|fd b ws n U H IH|fd b ws n U H IH]; [reflexivity| |]; cbn [filter fst].
  - apply is_user_spec in U. rewrite U. cbn [map snd]. match goal with |- context [list_sum (length b :: ?x)] => change (list_sum (length b :: x)) with (length b + list_sum x)%nat end. lia.
  - assert (E : is_user fd = false) by (destruct (is_user fd) eqn:E; [apply is_user_spec in E; contradiction|reflexivity]). rewrite E. exact IH.
Qed.
Lemma counted l s ws n : writes_all (filter other l) ws -> shown_bytes ws n -> capture_length (fst (run true l s)) = (capture_length s + n)%nat /\ capture_length (fst (run false l s)) = capture_length s.
Proof. intros W H. rewrite (run_count true l s ws W), (run_count false l s ws W), <- (user_count ws n H). split; [reflexivity|lia]. Qed.
