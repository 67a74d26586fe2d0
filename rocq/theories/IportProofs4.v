From Coq Require Import List NArith ZArith Bool.
From Verif Require Import Base FilterModel GlobSpec SockModel SockSpec SockProofs IportModel.
Import ListNotations.
Local Open Scope N_scope.

Lemma nothing_for : forall t s, cstr t -> Forall (fun p => cstr (p_to p)) (incoming s) -> (pick t (incoming s) = None <-> forall q, In q (incoming s) -> ~ glob false (p_to q) t).
Proof.
  intros t s C F. rewrite pick_none. rewrite Forall_forall in F. split; intros H q I.
  - intros G. apply selects_glob in G; auto. rewrite (H q I) in G. discriminate.
  - apply not_true_is_false. intros S. apply selects_glob in S; auto. exact (H q I S).
Qed.
Lemma waits : forall pton ntop own dest fd block len a s t t', iport_tostring ntop own = Some t -> iport_tostring ntop dest = Some t' -> cstr t -> Forall (fun p => cstr (p_to p)) (incoming s) ->
  let nothing := block = true /\ forall q, In q (incoming s) -> ~ glob false (p_to q) t in
  (connect ntop fd own dest block s = Waiting <-> nothing) /\ (accept pton ntop own block fd a s = Waiting <-> nothing) /\ (recvfrom pton ntop own block len a s = Waiting <-> nothing).
Proof.
  intros pton ntop own dest fd block len a s t t' E E' C F nothing. subst nothing. rewrite <- (nothing_for t s C F).
  unfold connect, accept, recvfrom, with_text. rewrite E, E'. cbn [step]. unfold recv, read_incoming. cbn [incoming with_socket].
  assert (N : forall p ad s' r, fill pton p ad s' r <> Waiting) by (intros p [ad|] s' r; cbn [fill]; [destruct (iport_parse pton (p_from p) ad)|]; discriminate).
  destruct (pick t (incoming s)) as [(p, r)|].
  - assert (X : block = true /\ Some (p, r) = None <-> False) by (split; [intros (_ & Y); discriminate|contradiction]). rewrite X. cbn [plainly]. split; [split; [discriminate|contradiction]|]. split.
    + split; [apply N|contradiction].
    + destruct (len <? length (p_data p))%nat; (split; [|contradiction]); [discriminate|apply N].
  - destruct block; cbn [plainly]; split; [|split| |split]; split; try discriminate; auto; intros (Y & _); discriminate.
Qed.
