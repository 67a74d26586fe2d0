(** Every value has texts; a text has one value; what is accepted beyond the grammar. *)
From Coq Require Import List NArith ZArith Bool Arith Lia.
From Verif Require Import Base FilterModel StrModel StrSpec StrProofs ExprModel ExprSpec ExprProofs ExprProofs2 JsonModel JsonSpec JsonProofs JsonProofs2 JsonProofs3.
Import ListNotations.
Local Open Scope N_scope.

Lemma document_one A v v' s : document A v s -> document A v' s -> v = v'.
Proof. intros D1 D2. apply tree_of_document in D1. apply tree_of_document in D2. congruence. Qed.
Lemma piece_for c : c <> 0 -> c <> 92 -> exists p, match p with Plain x => x <> 92 /\ c = x | Esc e => meaning e = Some c end /\ match p with Plain x => x <> 34 /\ x <> 0 | Esc _ => True end.
Proof.
  intros N0 N1. destruct (N.eq_dec c 34) as [->|N2]; [exists (Esc 34); split; [reflexivity|exact I]|]. exists (Plain c). auto.
Qed.
Lemma quoted_exists t : Forall (fun c => c <> 0 /\ c <> 92) t -> exists s, quoted_text t s.
Proof.
  intro F. assert (H : exists l, denotes l t /\ Forall (fun p => match p with Plain c => c <> 34 /\ c <> 0 | Esc _ => True end) l).
  { induction F as [|c t (N0 & N1) F (l & D & G)]; [exists []; split; constructor|]. destruct (piece_for c N0 N1) as (p & P1 & P2). exists (p :: l). split; constructor; auto. }
  destruct H as (l & D & G). exists (34 :: StrSpec.written l ++ [34]), 34, l. auto.
Qed.
Lemma writable_text A v : writable A v -> exists t, jtext A v t.
Proof.
  induction v as [| |b|x|s|s|l IH|l IH] using value_deep; intro W; inversion W; subst.
  - eexists; constructor.
  - destruct b; eexists; constructor.
  - destruct H0 as (s & H). eexists; constructor; exact H.
  - destruct (quoted_exists s H0) as (t & T). eexists; constructor; exact T.
  - eexists; constructor; exact H0.
  - destruct l as [|v l]; [exists (91 :: [] ++ [93]); constructor; constructor|].
    assert (Q : exists s, jitems A (v :: l) s).
    { clear W. revert v IH H0. induction l as [|v2 l IHl]; intros v IH F.
      - destruct (Forall_inv IH (Forall_inv F)) as (t & T). exists ([] ++ t ++ []). constructor; auto; constructor.
      - destruct (Forall_inv IH (Forall_inv F)) as (t & T). apply Forall_inv_tail in IH. apply Forall_inv_tail in F. destruct (IHl v2 IH F) as (s & Hs).
        exists ([] ++ t ++ [] ++ 44 :: s). constructor; auto; constructor. }
    destruct Q as (s & Hs). eexists; apply T_arr; exact Hs.
  - destruct l as [|(k, v) l]; [exists (123 :: [] ++ [125]); constructor; constructor|].
    assert (Q : exists s, jmembers A ((k, v) :: l) s).
    { clear W. revert k v IH H0. induction l as [|(k2, v2) l IHl]; intros k v IH F.
      - destruct (Forall_inv IH (proj2 (Forall_inv F))) as (t & T). destruct (quoted_exists k (proj1 (Forall_inv F))) as (kt & KT). exists ([] ++ kt ++ [] ++ 58 :: [] ++ t ++ []). constructor; auto; constructor.
      - destruct (Forall_inv IH (proj2 (Forall_inv F))) as (t & T). destruct (quoted_exists k (proj1 (Forall_inv F))) as (kt & KT).
        apply Forall_inv_tail in IH. apply Forall_inv_tail in F. destruct (IHl k2 v2 IH F) as (s & Hs).
        exists ([] ++ kt ++ [] ++ 58 :: [] ++ t ++ [] ++ 44 :: s). constructor; auto; constructor. }
    destruct Q as (s & Hs). eexists; apply T_obj; exact Hs.
Qed.
Lemma writable_document A v : writable A v -> exists s, document A v s.
Proof. intro W. destruct (writable_text A v W) as (t & T). exists ([] ++ t ++ []), [], t, []. repeat split; auto; constructor. Qed.
Lemma layouts A v t w1 w2 : jtext A v t -> ws w1 -> ws w2 -> document A v (w1 ++ t ++ w2).
Proof. intros. exists w1, t, w2. auto. Qed.

Lemma ws_not_in c w : ~ (c = 32 \/ (9 <= c /\ c <= 13)) -> ws w -> ~ In c w.
Proof. intros N W I. apply N. exact (proj1 (Forall_forall _ _) W c I). Qed.
Lemma trailing_comma : tree_of (evaluate ints) (str "[1,]") = Done (Arr [Num 1%Z]) [] /\ ~ exists v, document ints v (str "[1,]").
Proof.
  assert (E : tree_of (evaluate ints) (str "[1,]") = Done (Arr [Num 1%Z]) []) by (vm_compute; reflexivity). split; [exact E|].
  intros (v & D). pose proof (tree_of_document ints v _ D) as E2. assert (V : v = Arr [Num 1%Z]) by congruence. subst v.
  destruct D as (w1 & t & w2 & W1 & W2 & T & TX). assert (I : In 44 (w1 ++ t ++ w2)) by (rewrite <- TX; vm_compute; auto).
  assert (It : In 44 t).
  { apply in_app_or in I. destruct I as [I|I]; [exfalso; revert I; apply ws_not_in; auto; lia|]. apply in_app_or in I. destruct I as [I|I]; [exact I|exfalso; revert I; apply ws_not_in; auto; lia]. }
  inversion T as [| | | | | | |l s J| |]; subst. destruct It as [It|It]; [discriminate|]. apply in_app_or in It. destruct It as [It|[It|[]]]; [|discriminate].
  inversion J as [v w3 t' w4 W3 W4 Tn|v w3 t' w4 l s' W3 W4 Tn J']; subst; [|inversion J'].
  apply in_app_or in It. destruct It as [It|It]; [revert It; apply ws_not_in; auto; lia|]. apply in_app_or in It. destruct It as [It|It]; [|revert It; apply ws_not_in; auto; lia].
  inversion Tn; subst. destruct H0 as (ts & u & _ & _ & _ & NC & _). contradiction.
Qed.
