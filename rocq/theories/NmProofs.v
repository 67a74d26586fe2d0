(** Proofs about the lookup of functions (C76): the list of symbols. *)
From Coq Require Import List NArith ZArith Bool Arith Lia.
From Verif Require Import Base FilterModel MemcmpModel MemcmpSpec BlockProofs NmModel NmSpec.
Import ListNotations.
Local Open Scope N_scope.

Lemma fgets_line : forall s k cur rest, ~ In 10 s -> (length s <= k)%nat -> fgets k cur (s ++ 10 :: rest) = (rev cur ++ s ++ [10]) :: fgets 2045 [] rest.
Proof.
  induction s as [|c s IH]; intros k cur rest NI L.
  - cbn [app fgets]. rewrite N.eqb_refl. reflexivity.
  - cbn [app fgets]. destruct (c =? 10) eqn:E; [apply N.eqb_eq in E; exfalso; apply NI; left; exact E|].
    destruct k as [|k]; [cbn in L; lia|]. rewrite IH; [|intro I; apply NI; right; exact I|cbn in L; lia]. cbn [rev]. rewrite <- app_assoc. reflexivity.
Qed.
Lemma span_app : forall f a b, Forall (fun c => f c = true) a -> match b with [] => True | c :: _ => f c = false end -> span f (a ++ b) = (a, b).
Proof.
  intros f a b H B. induction H as [|c a C H IH]; cbn.
  - destruct b as [|c b]; [reflexivity|]. cbn. rewrite B. reflexivity.
  - rewrite C, IH. reflexivity.
Qed.
Lemma isx_space : forall c, isxdigit c = true -> isspace c = false.
Proof. intros c H. unfold isxdigit in H. unfold isspace. rewrite !orb_true_iff, !andb_true_iff, !N.leb_le in H. rewrite orb_false_iff, andb_false_iff, N.eqb_neq, !N.leb_gt. lia. Qed.
Lemma strip_first : forall c s, isspace c = false -> strip_left (c :: s) = c :: s.
Proof. intros c s H. cbn. rewrite H. reflexivity. Qed.
Lemma number_bound : forall ds a, Forall (fun d => (0 <= d < 16)%Z) ds -> (0 <= a)%Z -> (0 <= fold_left (fun a d => (a * 16 + d)%Z) ds a < (a + 1) * 16 ^ Z.of_nat (length ds))%Z.
Proof.
  intros ds. induction ds as [|d ds IH]; intros a F A; cbn [fold_left length].
  - change (16 ^ Z.of_nat 0)%Z with 1%Z. lia.
  - inversion F; subst. specialize (IH (a * 16 + d)%Z H2 ltac:(lia)). rewrite Nat2Z.inj_succ, Z.pow_succ_r by lia. nia.
Qed.
Lemma writes_digit : forall c d, writes c d -> (0 <= d < 16)%Z.
Proof. intros c d (n & -> & H). do 16 (destruct n as [|n]; [lia|]). destruct H as [H|H]; cbn in H; destruct n; discriminate. Qed.
Lemma hex_digits_fold : forall s ds a, Forall2 writes s ds -> (0 <= a)%Z -> ((a + 1) * 16 ^ Z.of_nat (length s) <= 2 ^ 64)%Z ->
  hex_digits s (Z.to_N a) = Z.to_N (fold_left (fun a d => (a * 16 + d)%Z) ds a).
Proof.
  intros s ds a W. revert a. induction W as [|c d s ds C W IH]; intros a A B; [reflexivity|].
  cbn [hex_digits fold_left]. destruct (writes_hex _ _ C) as (X & Y). rewrite X, Y.
  pose proof (writes_digit _ _ C) as D.
  cbn [length] in B. rewrite Nat2Z.inj_succ, Z.pow_succ_r in B by lia. assert (P : (0 < 16 ^ Z.of_nat (length s))%Z) by (apply Z.pow_pos_nonneg; lia).
  rewrite N.min_l by (apply N2Z.inj_le; rewrite N2Z.inj_add, N2Z.inj_mul, !Z2N.id by lia; change (Z.of_N 16) with 16%Z; change (Z.of_N (2 ^ 64)) with (2 ^ 64)%Z; nia).
  rewrite <- IH; [f_equal; rewrite Z2N.inj_add, Z2N.inj_mul by lia; change (Z.to_N 16) with 16; lia|lia|nia].
Qed.
Lemma strtoull16_ok : forall s ds, Forall2 writes s ds -> (length s <= 16)%nat -> strtoull16 s = Z.to_N (number 16 ds).
Proof.
  intros s ds W L. unfold strtoull16. pose proof (hex_digits_fold s ds 0%Z W ltac:(lia)) as H. change (Z.to_N 0) with 0 in H.
  assert (D : Forall (fun d => (0 <= d < 16)%Z) ds).
  { clear - W. induction W as [|c d s ds C W IH]; constructor; [apply (writes_digit _ _ C)|exact IH]. }
  assert (E : length ds = length s) by (clear - W; induction W; cbn; congruence).
  assert (P : (16 ^ Z.of_nat (length s) <= 2 ^ 64)%Z) by (change (2 ^ 64)%Z with (16 ^ 16)%Z; apply Z.pow_le_mono_r; lia).
  rewrite H by lia. unfold number. pose proof (number_bound ds 0%Z D ltac:(lia)) as B. rewrite E in B.
  apply N.min_l. apply N2Z.inj_le. rewrite Z2N.id by lia. change (Z.of_N (2 ^ 64 - 1)) with (2 ^ 64 - 1)%Z. lia.
Qed.

Lemma sscanf_line : forall e, proper e -> sscanf3 (printed e) = Some (e_addr e, e_type e, e_name e) /\ overrun (printed e) = false.
Proof.
  intros [a t n] (L & (ds & W) & T & NM & NL & _). cbn [e_addr e_type e_name] in *. unfold sscanf3, overrun, printed. cbn [e_addr e_type e_name].
  assert (X : Forall (fun c => isxdigit c = true) a). { clear - W. induction W as [|c d s ds C W IH]; constructor; [apply (writes_hex _ _ C)|exact IH]. }
  destruct a as [|c a]; [cbn in L; lia|]. inversion X; subst. rewrite <- app_comm_cons. rewrite strip_first by (apply isx_space; assumption).
  replace (c :: a ++ [32; t; 32] ++ n ++ [10]) with ((c :: a) ++ 32 :: t :: 32 :: n ++ [10]) by reflexivity.
  rewrite span_app; [|eapply Forall_impl; [|exact X]; intros x Hx; cbv beta; rewrite isx_space by exact Hx; reflexivity|reflexivity].
  split; [|cbn [fst]; apply Nat.leb_gt; lia].
  replace (strip_left (32 :: t :: 32 :: n ++ [10])) with (t :: 32 :: n ++ [10]) by (cbn [strip_left]; change (isspace 32) with true; cbv iota; apply BlockProofs.not_white in T; rewrite T; reflexivity).
  destruct n as [|x n]; [contradiction|]. apply BlockProofs.not_white in NM.
  replace (strip_left (32 :: (x :: n) ++ [10])) with ((x :: n) ++ [10]) by (cbn [app strip_left]; change (isspace 32) with true; cbv iota; rewrite NM; reflexivity).
  rewrite span_app; [reflexivity| |reflexivity]. apply Forall_forall. intros y Y. apply negb_true_iff, N.eqb_neq. intros ->. contradiction.
Qed.
Lemma rejected_data : forall e, rejected (e_type e) = true <-> data e.
Proof.
  intros e. unfold rejected, data. rewrite existsb_exists. split; [intros (x & I & E); apply N.eqb_eq in E; rewrite E; exact I|intros I; exists (e_type e); split; [exact I|apply N.eqb_refl]].
Qed.
Lemma printed_lines : forall es, Forall proper es -> fgets 2045 [] (flat_map printed es) = map printed es.
Proof.
  intros es F. induction F as [|e es P F IH]; [reflexivity|]. cbn [flat_map map]. destruct P as (L & (ds & W) & T & NM & NL & LL).
  assert (E : printed e = (e_addr e ++ [32; e_type e; 32] ++ e_name e) ++ [10]) by (unfold printed; rewrite <- !app_assoc; reflexivity).
  rewrite E, <- app_assoc. cbn [app]. rewrite fgets_line.
  - cbn [rev app]. rewrite IH. reflexivity.
  - rewrite in_app_iff. intros [I|[I|[I|[I|I]]]]; [| discriminate | |discriminate|contradiction].
    + clear - W I. induction W as [|c d s ds C W IH]; [contradiction|]. destruct I as [->|I]; [|auto]. apply writes_hex in C. destruct C as (C & _). discriminate.
    + apply T. rewrite I. right. right. left. reflexivity.
  - rewrite E, app_length in LL. cbn in LL. lia.
Qed.
Lemma table_ok : forall es, Forall proper es -> exists l, nm (flat_map printed es) = Some l /\ exists kept, picks (fun e => ~ data e) es kept /\ Forall2 recorded kept l.
Proof.
  intros es F. unfold nm. rewrite printed_lines by exact F. induction F as [|e es P F (l & IH & kept & K & R)].
  - exists []. split; [reflexivity|]. exists []. split; constructor.
  - cbn [map nm_lines]. destruct (sscanf_line e P) as (S3 & O). rewrite O, S3. destruct (rejected (e_type e)) eqn:J.
    + exists l. split; [exact IH|]. exists kept. split; [apply pick_not; [|exact K]|exact R]. intro H. apply H, rejected_data, J.
    + rewrite IH. eexists. split; [reflexivity|]. exists (e :: kept). split; [apply pick_it; [intro D; apply rejected_data in D; congruence|exact K]|].
      constructor; [|exact R]. split; [reflexivity|]. intros ds W. apply strtoull16_ok; [exact W|destruct P as (P & _); lia].
Qed.
