(** C79: how values are shown in reports. *)
From Coq Require Import List NArith ZArith QArith Qabs Bool Arith.
From Verif Require Import Base LineSpec JunitSpec MessageSpec ValueModel ValueSpec ValueProofs ValueProofs2.
Import ListNotations.
Local Open Scope N_scope.

(** what is shown *)
Theorem C79_shown : forall st represent v, ~ In (str "dark gray") st -> quiet v -> shown st represent v (ink st (print represent v)) /\ behind_line st (print represent v) = st.
Proof. exact display_ok. Qed.
Print Assumptions C79_shown.
Example C79_shown_example :
  let st := [str "red"] in let v := VPair (VSeq [VInt (-12); VReal (5 # 4); VBool true]) (VTuple [VText (str "ab"); VChar 99; VNull]) in
  ~ In (str "dark gray") st /\ quiet v /\ map snd (ink st (print true v)) = str "([-12, 1.25, true], (" ++ [34] ++ str "ab" ++ [34] ++ str ", 'c', (null)))" /\
  map snd (ink st (print false v)) = str "([-12, 1.25, true], (ab, c, (null)))" /\
  ink st (print true (VPair (VInt 7) (VWchar 955))) = grayed st (str "(") ++ letters st (str "7") ++ grayed st (str ", '") ++ letters st (str "?") ++ grayed st (str "')").
Proof. exact display_example. Qed.
(** numbers with a fraction *)
Example C79_real_example : fractional (1 # 3) (str "0.333333") /\ fractional (-2 # 1) (str "-2") /\ fractional (5 # 10000000) (str "0") /\ fractional (15 # 10000000) (str "0.000002").
Proof. exact real_example. Qed.

(** different values of a type are shown differently *)
Theorem C79_distinct : forall st t v w, ~ In (str "dark gray") st -> has t v -> has t w -> ink st (print true v) = ink st (print true w) -> v = w.
Proof. exact distinct_ok. Qed.
Print Assumptions C79_distinct.
(** of a list of two texts and a list of one text the letters are the same; only the colours of quotation marks and commas differ *)
Example C79_distinct_example :
  let t := TPair (TSeq TText) (TTuple [TReal; TChar]) in
  has t (VPair (VSeq [VText (str "a"); VText (str "b")]) (VTuple [VReal (1500000 # 1000000); VChar 44])) /\
  has t (VPair (VSeq [VText (str "a" ++ [34] ++ str ", " ++ [34] ++ str "b")]) (VTuple [VReal (1500000 # 1000000); VChar 44])) /\
  map snd (ink [] (print true (VSeq [VText (str "a"); VText (str "b")]))) = map snd (ink [] (print true (VSeq [VText (str "a" ++ [34] ++ str ", " ++ [34] ++ str "b")]))).
Proof. exact distinct_example. Qed.
(** texts that differ behind a character 0, long containers and numbers less than a millionth apart look the same *)
Theorem C79_nul_refuted : exists v w, v <> w /\ ink [] (print true v) = ink [] (print true w) /\ v = VText (str "a") /\ w = VText (str "a" ++ [0] ++ str "b").
Proof. exact nul_lost. Qed.
Print Assumptions C79_nul_refuted.
Theorem C79_long_refuted : exists l m, l <> m /\ length l = length m /\ Forall (has TInt) l /\ Forall (has TInt) m /\ ink [] (print true (VSeq l)) = ink [] (print true (VSeq m)).
Proof. exact many_lost. Qed.
Print Assumptions C79_long_refuted.
Theorem C79_small_refuted : exists p q, ~ (p == q)%Q /\ ink [] (print true (VReal p)) = letters [] (str "0") /\ ink [] (print true (VReal q)) = letters [] (str "0").
Proof. exact small_lost. Qed.
Print Assumptions C79_small_refuted.
