(** Proofs: the whole dump. *)
From Coq Require Import List NArith Bool Arith Lia.
From Verif Require Import Base LineModel LineSpec LineProofs LineProofs2 DumpModel DumpSpec DumpProofs DumpProofs2.
Import ListNotations.
Local Open Scope N_scope.

Lemma rows_eq : forall n per size, (0 < per)%nat -> (0 < size)%nat -> row_count (n * size) (per * size) = rows_for per n.
Proof.
  intros n per size P S1. unfold row_count, rows_for. rewrite (Nat.mul_comm per size) at 2. rewrite <- Nat.div_div by lia. f_equal.
  symmetry. apply (Nat.div_unique _ _ _ (size - 1)); [lia|]. nia.
Qed.
Lemma nth_map_seq : forall {A} (f : nat -> A) n k d, (k < n)%nat -> nth k (map f (seq 0 n)) d = f k.
Proof. intros A f n k d K. rewrite (nth_indep _ d (f 0%nat)) by (rewrite map_length, seq_length; exact K). rewrite map_nth, seq_nth by exact K. reflexivity. Qed.
Lemma halves_ok : forall size per e a n, (1 <= size)%nat -> (0 < per)%nat -> length e = (n * size)%nat -> length a = (n * size)%nat -> Forall (fun b => b < 256) e -> Forall (fun b => b < 256) a ->
  let ls := print_ints size (per * size) e a in length (fst ls) = rows_for per n /\ length (snd ls) = rows_for per n /\
  forall k, (k < rows_for per n)%nat -> exists ps qs,
    Halves (2 * size) 0 (row_of per k (elements size e)) (row_of per k (elements size a)) ps /\ painted (str "green") (nth k (fst ls) []) ps /\
    Halves (2 * size) 0 (row_of per k (elements size a)) (row_of per k (elements size e)) qs /\ painted (str "bold,red") (nth k (snd ls) []) qs.
Proof.
  intros size per e a n S1 P LE LA BE BA. cbn zeta. unfold print_ints. cbn zeta. cbn [fst snd]. rewrite LE, rows_eq by lia. rewrite !map_map, !map_length, !seq_length. split; [reflexivity|]. split; [reflexivity|].
  intros k K. rewrite !nth_map_seq by exact K. exact (ints_row_ok size per e a n S1 P LE LA BE BA k).
Qed.
Lemma halves_numbers : forall d m vs ws ps, Forall (fun v => v < 2 ^ 32) vs -> Halves d m vs ws ps -> Numbers d m vs ws ps.
Proof.
  intros d m vs ws ps F H. induction H as [m|m v w vs ws t ps X L H IH]; [constructor|]. inversion F as [|? ? V F']; subst. rewrite N.mod_small in X by exact V. constructor; auto.
Qed.
Lemma row_small : forall size per k l, (forall m, element size l m < 2 ^ 32) -> Forall (fun v => v < 2 ^ 32) (row_of per k (elements size l)).
Proof. intros size per k l V. unfold elements. rewrite row_of_seq. apply Forall_forall. intros v I. apply in_map_iff in I. destruct I as (j & <- & _). apply V. Qed.
Lemma ints_ok : forall size per e a n, (1 <= size)%nat -> (0 < per)%nat -> length e = (n * size)%nat -> length a = (n * size)%nat -> Forall (fun b => b < 256) e -> Forall (fun b => b < 256) a ->
  (forall m, element size e m < 2 ^ 32) -> (forall m, element size a m < 2 ^ 32) ->
  let ls := print_ints size (per * size) e a in length (fst ls) = rows_for per n /\ length (snd ls) = rows_for per n /\
  forall k, (k < rows_for per n)%nat -> exists ps qs,
    Numbers (2 * size) 0 (row_of per k (elements size e)) (row_of per k (elements size a)) ps /\ painted (str "green") (nth k (fst ls) []) ps /\
    Numbers (2 * size) 0 (row_of per k (elements size a)) (row_of per k (elements size e)) qs /\ painted (str "bold,red") (nth k (snd ls) []) qs.
Proof.
  intros size per e a n S1 P LE LA BE BA VE VA. destruct (halves_ok size per e a n S1 P LE LA BE BA) as (L1 & L2 & H). cbn zeta. split; [exact L1|]. split; [exact L2|]. intros k K.
  destruct (H k K) as (ps & qs & A & B & C & D). exists ps, qs. split; [apply halves_numbers; [apply row_small, VE|exact A]|]. split; [exact B|]. split; [apply halves_numbers; [apply row_small, VA|exact C]|exact D].
Qed.
Lemma Forall_nth_lt : forall (P : line -> Prop) ls n, length ls = n -> (forall k, (k < n)%nat -> P (nth k ls [])) -> Forall P ls.
Proof. intros P ls n L H. apply Forall_forall. intros x X. destruct (In_nth _ _ [] X) as (k & K & <-). apply H. lia. Qed.
Lemma bits_ok : forall n e a, length e = ((n + 7) / 8)%nat ->
  let ls := print_bits n 4 e a in length (fst ls) = rows_for 32 n /\ length (snd ls) = rows_for 32 n /\
  forall k, (k < rows_for 32 n)%nat -> let b := row_of 32 k (bits_of n e) in let c := row_of 32 k (bits_of n a) in
    painted (str "green") (nth k (fst ls) []) (bit_pieces 0 b c ++ [missing_bytes (length b)]) /\ painted (str "bold,red") (nth k (snd ls) []) (bit_pieces 0 c b ++ [missing_bytes (length c)]).
Proof.
  intros n e a LE. cbn zeta. unfold print_bits. cbn zeta. cbn [fst snd].
  assert (R : row_count (length e) 4 = rows_for 32 n).
  { rewrite LE. unfold row_count, rows_for. replace ((n + 7) / 8 + 4 - 1)%nat with ((n + 32 - 1) / 8)%nat.
    - rewrite Nat.div_div by lia. reflexivity.
    - replace (n + 32 - 1)%nat with ((n + 7) + 3 * 8)%nat by lia. rewrite Nat.div_add by lia. lia. }
  rewrite R, !map_map, !map_length, !seq_length. split; [reflexivity|]. split; [reflexivity|]. intros k K. rewrite !nth_map_seq by exact K. apply (bits_row_ok e a n k).
  unfold rows_for in K. assert (32 * ((n + 32 - 1) / 32) <= n + 32 - 1)%nat by (apply Nat.mul_div_le; lia). lia.
Qed.

Lemma dump_numbers : forall W size n e a sw, In size [1; 2; 4; 8]%nat -> length e = (n * size)%nat -> length a = (n * size)%nat -> Forall (fun b => b < 256) e -> Forall (fun b => b < 256) a ->
  (size = 8%nat -> Forall (fun v => v < 2 ^ 32) (elements 8 e ++ elements 8 a)) ->
  let per := per_row W size in let R := rows_for per n in
  digits_of (N.of_nat per * N.of_nat R) sw -> (sw <= 8)%nat -> (sw + 10 <= W)%nat -> N.of_nat W < 2 ^ 64 ->
  exists d, memcmp_dump W (8 * size) n e a = Some d /\ two_columns W sw (N.of_nat per) R (str "expect") (str "actual") (number_texts size per e a) d.
Proof.
  intros W size n e a sw SZ LE LA BE BA V8. cbn zeta. intros DG S8 WW W64.
  assert (V : forall l, l = e \/ l = a -> forall m, element size l m < 2 ^ 32).
  { intros l D m. destruct (Nat.eq_dec size 8) as [E|E].
    - specialize (V8 E). rewrite E in *. apply Forall_app in V8. destruct V8 as (V1 & V2). rewrite Forall_forall in V1, V2.
      assert (L : length l = (n * 8)%nat) by (destruct D; subst l; assumption). assert (VL : forall v, In v (elements 8 l) -> v < 2 ^ 32) by (destruct D; subst l; assumption).
      destruct (Nat.lt_ge_cases m n) as [M|M].
      + apply VL. unfold elements. rewrite L, Nat.div_mul by lia. apply in_map, in_seq. lia.
      + unfold element. rewrite skipn_all2 by lia. rewrite firstn_nil. reflexivity.
    - apply small_elements; [destruct D; subst l; assumption|]. cbn in SZ. lia. }
  set (per := per_row W size) in *. set (R := rows_for per n) in *.
  assert (PS : (0 < per)%nat /\ (1 <= size)%nat /\ memcmp_dump W (8 * size) n e a = split (fst (print_ints size (per * size) e a)) (snd (print_ints size (per * size) e a)) (str "expect") (str "actual") (N.of_nat per) 16 W).
  { cbn in SZ. unfold per, per_row. destruct SZ as [<-|[<-|[<-|[<-|[]]]]]; cbn [Nat.eqb andb]; [destruct (Nat.ltb_spec W 108)| | |]; (split; [vm_compute; lia|]); (split; [lia|]); unfold memcmp_dump; cbn [Nat.mul Nat.add].
    1: destruct (Nat.ltb_spec W 108); [|lia]. 2: destruct (Nat.ltb_spec W 108); [lia|].
    all: rewrite (surjective_pairing (print_ints _ _ e a)); reflexivity. }
  destruct PS as (P & S1 & ->). destruct (ints_ok size per e a n S1 P LE LA BE BA (V e (or_introl eq_refl)) (V a (or_intror eq_refl))) as (L1 & L2 & H). cbn zeta in *.
  assert (PL : Forall proper (fst (print_ints size (per * size) e a))).
  { apply (Forall_nth_lt _ _ _ L1). intros k K. destruct (H k K) as (ps & qs & _ & A & _ & B). apply (painted_text _ _ _ A). }
  assert (PR : Forall proper (snd (print_ints size (per * size) e a))).
  { apply (Forall_nth_lt _ _ _ L2). intros k K. destruct (H k K) as (ps & qs & _ & A & _ & B). apply (painted_text _ _ _ B). }
  destruct (split_ok _ _ (str "expect") (str "actual") (N.of_nat per) W sw R PL PR L1 L2 ltac:(vm_compute; lia) ltac:(vm_compute; lia) ltac:(lia) DG S8 WW W64)
    as (lw & rw & title & groups & tl & tr & E & Hl & Hr & HS & CL & CR & T & GL & G).
  eexists. split; [exact E|]. exists lw, rw, title, groups, tl, tr. split; [reflexivity|]. do 7 (split; [assumption|]). intros k K.
  destruct (G k K) as (label & RL & SH). destruct (H k K) as (ps & qs & N1 & A & N2 & B). exists label, (told ps), (told qs). split; [exact RL|].
  destruct (painted_text _ _ _ A) as (_ & EA). destruct (painted_text _ _ _ B) as (_ & EB). rewrite EA, EB in SH. split; [|exact SH]. exists ps, qs. auto.
Qed.
Lemma dump_bits : forall W n e a sw, length e = ((n + 7) / 8)%nat -> length a = ((n + 7) / 8)%nat ->
  let R := rows_for 32 n in digits_of (32 * N.of_nat R) sw -> (sw <= 8)%nat -> (sw + 10 <= W)%nat -> N.of_nat W < 2 ^ 64 ->
  exists d, memcmp_dump W 1 n e a = Some d /\ two_columns W sw 32 R (str "expect") (str "actual") (bit_texts n e a) d.
Proof.
  intros W n e a sw LE LA. cbn zeta. intros DG S8 WW W64. set (R := rows_for 32 n) in *.
  assert (M : memcmp_dump W 1 n e a = split (fst (print_bits n 4 e a)) (snd (print_bits n 4 e a)) (str "expect") (str "actual") 32 16 W).
  { unfold memcmp_dump. rewrite (surjective_pairing (print_bits n 4 e a)). reflexivity. }
  rewrite M. destruct (bits_ok n e a LE) as (L1 & L2 & H). cbn zeta in *.
  assert (PL : Forall proper (fst (print_bits n 4 e a))) by (apply (Forall_nth_lt _ _ _ L1); intros k K; destruct (H k K) as (A & B); apply (painted_text _ _ _ A)).
  assert (PR : Forall proper (snd (print_bits n 4 e a))) by (apply (Forall_nth_lt _ _ _ L2); intros k K; destruct (H k K) as (A & B); apply (painted_text _ _ _ B)).
  destruct (split_ok _ _ (str "expect") (str "actual") 32 W sw R PL PR L1 L2 ltac:(vm_compute; lia) ltac:(vm_compute; lia) ltac:(lia) DG S8 WW W64)
    as (lw & rw & title & groups & tl & tr & E & Hl & Hr & HS & CL & CR & T & GL & G).
  eexists. split; [exact E|]. exists lw, rw, title, groups, tl, tr. split; [reflexivity|]. do 7 (split; [assumption|]). intros k K.
  destruct (G k K) as (label & RL & SH). destruct (H k K) as (A & B). destruct (painted_text _ _ _ A) as (_ & EA). destruct (painted_text _ _ _ B) as (_ & EB).
  exists label. do 2 eexists. split; [exact RL|]. split; [|exact SH]. split; assumption.
Qed.
(** digits determine the value, so what is shown determines the data *)
Lemma Hex_app_inv : forall t c v, Hex (t ++ [c]) v -> exists w d, v = 16 * w + d /\ Hex t w /\ hex_value c = Some d.
Proof. intros t c v H. inversion H as [E|t0 v0 c0 d0 H0 D E1 E2]; [destruct t; discriminate|]. apply app_inj_tail in E1. destruct E1 as (-> & ->). eauto. Qed.
Lemma hex_functional : forall t v w, Hex t v -> Hex t w -> v = w.
Proof.
  induction t as [|c t IH] using rev_ind; intros v w A B.
  - inversion A as [|t0 ? ? ? ? ? E]; [|destruct t0; discriminate]. inversion B as [|t1 ? ? ? ? ? E]; [|destruct t1; discriminate]. reflexivity.
  - apply Hex_app_inv in A. apply Hex_app_inv in B. destruct A as (v1 & d1 & -> & A & D1), B as (v2 & d2 & -> & B & D2). rewrite D1 in D2. injection D2 as <-. rewrite (IH _ _ A B). reflexivity.
Qed.
Lemma numbers_injective : forall d vs ws ps m, Numbers d m vs ws ps -> forall vs2 ws2 qs, Numbers d m vs2 ws2 qs -> length vs = length vs2 -> told ps = told qs -> vs = vs2.
Proof.
  intros d vs ws ps m H. induction H as [m|m v w vs ws t ps HX L H IH]; intros vs2 ws2 qs K E T; inversion K as [m2|m2 v2 w2 vs3 ws3 t2 qs2 HX2 L2 K2]; subst; try discriminate; [reflexivity|].
  unfold told in T. cbn [map concat snd] in T. rewrite <- !app_assoc in T. apply app_inv_head in T.
  assert (A : t = t2 /\ concat (map snd ps) = concat (map snd qs2)).
  { split; [apply (f_equal (firstn (length t))) in T; rewrite firstn_app, Nat.sub_diag, firstn_all, firstn_O, app_nil_r in T; rewrite <- L2 in T; rewrite firstn_app, Nat.sub_diag, firstn_all, firstn_O, app_nil_r in T; exact T|].
    apply (f_equal (skipn (length t))) in T. rewrite skipn_app, Nat.sub_diag, skipn_all in T. rewrite <- L2 in T. rewrite skipn_app, Nat.sub_diag, skipn_all in T. exact T. }
  destruct A as (-> & A). rewrite (hex_functional _ _ _ HX HX2). f_equal. apply (IH _ _ _ K2); [cbn in E; lia|exact A].
Qed.
