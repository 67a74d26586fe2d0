(** C51: colour markup. *)
From Coq Require Import List NArith Bool Arith Lia.
From Verif Require Import Base StrModel LineModel LineSpec ColorModel ColorSpec ColorProofs.
Import ListNotations.
Local Open Scope N_scope.

(** without colours exactly the words that are no style words are written *)
Theorem C51_plain : forall l t, printl false l t = Some (t, spoken l).
Proof. exact plain_output. Qed.
Print Assumptions C51_plain.
(** with colours and style words that fit, something is written ... *)
Theorem C51_written : forall l t, Forall short l -> exists t' o, printl true l t = Some (t', o).
Proof. exact colored_some. Qed.
Print Assumptions C51_written.
(** ... of which a terminal shows the same text *)
Theorem C51_same_text : forall l t t' o, Forall printable l -> printl true l t = Some (t', o) -> forall a, map snd (terminal Plain a o) = spoken l.
Proof. exact colored_text. Qed.
Print Assumptions C51_same_text.
(** nested styles: each character is shown under exactly the styles around it, outermost first, and the styles in force before are
    in force again behind *)
Theorem C51_nested : forall d st, Forall style_name st -> nested_ok st d -> exists o, printl true (doc_words d) (table_of st) = Some (table_of st, o) /\ terminal Plain (map number st) o = doc_shown st d.
Proof. exact doc_shown_ok. Qed.
Print Assumptions C51_nested.
Definition C51_doc : doc := Txt (str "a") (Sty (str "bold") (Txt (str "b") (Sty (str "light red") (Txt (str "c") End) (Txt (str "d") End))) (Txt (str "e") End)).
Example C51_example : nested_ok [] C51_doc /\ doc_shown [] C51_doc = [([], 97); ([1], 98); ([1; 91], 99); ([1], 100); ([], 101)] /\
  printl true (doc_words C51_doc) empty_table = Some (empty_table, str "a" ++ [27] ++ str "[0;1mb" ++ [27] ++ str "[0;1;91mc" ++ [27] ++ str "[0;1md" ++ [27] ++ str "[0me").
Proof.
  split; [|split; vm_compute; reflexivity]. cbn. assert (S1 : style_name (str "bold")) by (vm_compute; tauto). assert (S2 : style_name (str "light red")) by (vm_compute; tauto).
  repeat match goal with |- _ /\ _ => split | |- True => exact Logic.I end; auto; try lia; vm_compute; intuition discriminate.
Qed.
(** a text between a style word of up to eight styles and reset is shown under exactly these styles, what follows under none *)
Theorem C51_brushed : forall ss s, Forall style_name ss -> (length ss <= 8)%nat -> ~ In 27 s ->
  exists o, printl true (brushed ss s) empty_table = Some (empty_table, o) /\ forall r, terminal Plain [] (o ++ r) = map (fun c => (map number ss, c)) s ++ terminal Plain [] r.
Proof. exact brushed_ok. Qed.
Print Assumptions C51_brushed.
(** reset ends all styles, whatever they are *)
Theorem C51_reset : forall t, length t = 8%nat -> exists o, printl true [27 :: str "{reset}"] t = Some (empty_table, o) /\ forall a r, terminal Plain a (o ++ r) = terminal Plain [] r.
Proof. exact reset_ok. Qed.
Print Assumptions C51_reset.
Example C51_brushed_example : Forall style_name [str "bold"; str "red"] /\ option_map snd (printl true (brushed [str "bold"; str "red"] (str "Failed")) empty_table) = Some ([27] ++ str "[0;1;31mFailed" ++ [27] ++ str "[0m").
Proof. split; [repeat constructor; vm_compute; tauto|vm_compute; reflexivity]. Qed.
(** a style within itself: the outer one ends with the inner one *)
Theorem C51_same_style_refuted : exists d, d = Sty (str "red") (Sty (str "red") (Txt (str "a") End) (Txt (str "b") End)) End /\
  option_map (fun p => terminal Plain [] (snd p)) (printl true (doc_words d) empty_table) = Some [([31; 31], 97); ([], 98)] /\ doc_shown [] d = [([31; 31], 97); ([31], 98)].
Proof. eexists. split; [reflexivity|]. split; vm_compute; reflexivity. Qed.
Print Assumptions C51_same_style_refuted.
(** overlapping styles: a style switched on last takes the place of one switched off and is sent before an older one, which wins *)
Theorem C51_overlap_refuted : exists l, l = [27 :: str "{+red}"; 27 :: str "{+green}"; 27 :: str "{-red}"; 27 :: str "{+blue}"; str "x"] /\
  option_map (fun p => terminal Plain [] (snd p)) (printl true l empty_table) = Some [([34; 32], 120)].
Proof. eexists. split; [reflexivity|]. vm_compute. reflexivity. Qed.
Print Assumptions C51_overlap_refuted.
(** more than eight styles: the ninth is not shown *)
Theorem C51_ninth_refuted : exists l, l = map (fun s => [27; 123; 43] ++ s ++ [125]) (map fst (firstn 9 sgr_numbers)) ++ [str "x"] /\
  option_map (fun p => map (fun q => length (fst q)) (terminal Plain [] (snd p))) (printl true l empty_table) = Some [8%nat].
Proof. eexists. split; [reflexivity|]. vm_compute. reflexivity. Qed.
Print Assumptions C51_ninth_refuted.
(** a name that is a beginning of reset, or empty, clears all styles *)
Theorem C51_prefix_refuted : exists l, l = [27 :: str "{+red}"; 27 :: str "{+r}"; str "x"; 27 :: str "{+red}"; 27 :: str "{+}"; str "y"] /\
  option_map (fun p => terminal Plain [] (snd p)) (printl true l empty_table) = Some [([], 120); ([], 121)].
Proof. eexists. split; [reflexivity|]. vm_compute. reflexivity. Qed.
Print Assumptions C51_prefix_refuted.
(** an unknown name counts as 0 and clears the styles before it *)
Theorem C51_unknown_refuted : exists l, l = [27 :: str "{+red}"; 27 :: str "{+pink}"; str "x"] /\
  option_map (fun p => terminal Plain [] (snd p)) (printl true l empty_table) = Some [([], 120)].
Proof. eexists. split; [reflexivity|]. vm_compute. reflexivity. Qed.
Print Assumptions C51_unknown_refuted.
(** a name of 32 bytes overruns its row *)
Theorem C51_long_refuted : exists l, l = [[27; 123] ++ repeat 97 32 ++ [125]] /\ printl true l empty_table = None.
Proof. eexists. split; [reflexivity|]. vm_compute. reflexivity. Qed.
Print Assumptions C51_long_refuted.
