(** Examples and counterexamples about backtraces (C78). *)
From Coq Require Import List NArith ZArith Bool Arith Lia.
From Verif Require Import Base FilterModel MemcmpModel MemcmpSpec TextModel TextSpec SplitModel SplitSpec DumpModel DumpSpec DumpProofs2 NmModel NmSpec
  StubModel StubSpec StubProofs2 TraceModel TraceSpec TraceProofs TraceProofs2.
Import ListNotations.
Local Open Scope N_scope.

Lemma line_ok : forall at_ s n line, described at_ s n line -> extract line = (n, option_map (fun st => at_ - st) s).
Proof. intros at_ s n line D. apply (extract_ok _ _ _ _ D). Qed.
Ltac notin := cbn; intuition discriminate.
Ltac wr n := exists n; split; [reflexivity|left; reflexivity].
Ltac hexs := split; [cbn; lia|]; eexists; split; [repeat (apply Forall2_cons; [first [wr 0%nat|wr 1%nat|wr 2%nat|wr 3%nat|wr 4%nat|wr 5%nat|wr 6%nat|wr 7%nat|wr 8%nat|wr 9%nat|wr 10%nat|wr 11%nat|wr 12%nat|wr 13%nat|wr 14%nat|wr 15%nat]|]); apply Forall2_nil|reflexivity].
Ltac nameok := split; [cbn; tauto|split; notin].
Ltac pathok := split; [discriminate|notin].
Ltac named f n x r := apply (by_name _ f n x _ r); [pathok|nameok|cbn; lia|reflexivity|hexs].
Lemma line_example :
  described 0x55aa6bb840ef (Some 0x55aa6bb83fbe) (str "_ZN2h24unit7executeEv") (str "./a.out(_ZN2h24unit7executeEv+0x131)[0x55aa6bb840ef]") /\
  extract (str "./a.out(_ZN2h24unit7executeEv+0x131)[0x55aa6bb840ef]") = (str "_ZN2h24unit7executeEv", Some 0x131) /\
  described 0x560c5ed06887 (Some 0x560c5ec55000) [] (str "./a.out(+0xb1887)[0x560c5ed06887]") /\ extract (str "./a.out(+0xb1887)[0x560c5ed06887]") = ([], Some 0xb1887) /\
  described 5 None [] (str "./a.out(f+0) [0x5]") /\ extract (str "./a.out(f+0) [0x5]") = ([], None) /\ extract (str "[0x5]") = ([], None).
Proof.
  split; [named (str "./a.out") (str "_ZN2h24unit7executeEv") (str "131") (str "[0x55aa6bb840ef]")|]. split; [reflexivity|].
  split; [apply (by_file _ (str "./a.out") (str "b1887") _ (str "[0x560c5ed06887]")); [pathok|reflexivity|hexs]|]. split; [reflexivity|].
  split; [apply (at_start _ (str "./a.out") (str "f") (str " [0x5]")); [pathok|nameok]|]. split; reflexivity.
Qed.
Lemma parenthesis : exists line, line = str "/home/a(+0x5)/t(main+0x10) [0x1010]" /\ snd (extract line) = Some 5.
Proof. eexists. split; reflexivity. Qed.
Lemma exempt_example :
  let m := fun a => if a =? 0x1000 then 0xE9 else if a =? 0x1001 then 0xFB else if a =? 0x1002 then 0x0F else 0 in
  let fs := [(0x9010, str "./a.out(f+0x10) [0x9010]"); (0x2010, str "./a.out(g+0x10) [0x2010]"); (0x9110, str "./a.out(main+0x10) [0x9110]")] in
  Forall2 (fun p q => entry_of m p q /\ q <> 0) [0x1000; 0x3000] [0x2000; 0x3000] /\ understood fs /\
  in_fps 1 fs (fold_left (add_by_fp m) [0x1000; 0x3000] no_fps) = true /\ in_fps 2 fs (fold_left (add_by_fp m) [0x1000; 0x3000] no_fps) = false.
Proof.
  cbv zeta. split; [|split; [|split; vm_compute; reflexivity]].
  - constructor; [|constructor; [|constructor]]; (split; [|discriminate]).
    + exists 1%nat. split; [lia|]. apply (chain_jump _ _ _ 0x2000); [|apply chain_end].
      * match goal with |- hop ?m _ _ => replace 0x2000 with (follow_jmp1 m 0x1000) by (vm_compute; reflexivity) end. apply follow_hop.
      * apply hop_stay; cbn; intuition discriminate.
    + exists 0%nat. split; [lia|]. apply chain_end. apply hop_stay; cbn; intuition discriminate.
  - constructor; [|constructor; [|constructor; [|constructor]]]; (split; [reflexivity|]); cbn [fst snd].
    + exists (Some 0x9000), (str "f"). named (str "./a.out") (str "f") (str "10") (str " [0x9010]").
    + exists (Some 0x2000), (str "g"). named (str "./a.out") (str "g") (str "10") (str " [0x2010]").
    + exists (Some 0x9100), (str "main"). named (str "./a.out") (str "main") (str "10") (str " [0x9110]").
Qed.

Lemma many_dropped : exists m ps qs shift fs, Forall2 (fun p q => entry_of m p q /\ q <> 0) ps qs /\ understood fs /\ inside shift fs (fun st => In st qs) /\
  in_fps shift fs (fold_left (add_by_fp m) ps no_fps) = false.
Proof.
  set (k := 4095%nat). pose (m := fun _ : N => 0x90). pose (ps := map (fun i => 16 + N.of_nat i) (seq 0 k)). pose (q := 16 + N.of_nat k).
  pose (fs := [(q + 1, str "./a.out(f+0x1) [0x1010]")]).
  assert (E : forall p, p <> 0 -> entry_of m p p /\ p <> 0).
  { intros p P. split; [|exact P]. exists 0%nat. split; [lia|]. apply chain_end. apply hop_stay; unfold m; intuition discriminate. }
  assert (F : Forall2 (fun p q => entry_of m p q /\ q <> 0) ps ps).
  { unfold ps. generalize (seq 0 k). intros l. induction l as [|i l IH]; cbn [map]; [constructor|]. constructor; [apply E; lia|exact IH]. }
  assert (L : length ps = 4095%nat) by (unfold ps; rewrite map_length, seq_length; reflexivity).
  assert (QV : q = 4111) by (unfold q, k; vm_compute; reflexivity).
  assert (D : described (q + 1) (Some q) (str "f") (str "./a.out(f+0x1) [0x1010]")).
  { rewrite QV. change (4111 + 1) with 4112. named (str "./a.out") (str "f") (str "1") (str " [0x1010]"). }
  assert (U : understood fs).
  { unfold fs. constructor; [|constructor]. cbn [fst snd]. split; [rewrite QV; reflexivity|]. eexists; eexists; exact D. }
  exists m, (ps ++ [q]), (ps ++ [q]), 0%nat, fs. split; [apply Forall2_app; [exact F|constructor; [apply E; rewrite QV; discriminate|constructor]]|].
  split; [exact U|]. split.
  - exists 0%nat, (q + 1), (str "./a.out(f+0x1) [0x1010]"), q, (str "f"). split; [lia|]. split; [reflexivity|]. split; [exact D|]. apply in_or_app. right. left. reflexivity.
  - rewrite (dropped m ps ps q F L). destruct (in_fps 0 fs (fold_left (add_by_fp m) ps no_fps)) eqn:X; [|reflexivity]. exfalso.
    apply (exempt_ok m ps ps 0 fs F (Nat.eq_le_incl _ _ L) U) in X. destruct X as (i & at_ & line & st & n & _ & K & D' & I).
    destruct i as [|i]; [|destruct i; discriminate]. cbn in K. inversion K; subst at_ line. destruct (extract_start _ _ _ _ _ _ D D') as (S1 & _). inversion S1; subst st.
    unfold ps in I. apply in_map_iff in I. destruct I as (i & I & J). apply in_seq in J. unfold q in I. lia.
Qed.

Lemma asked_some : forall path d at_, at_ < 2 ^ 64 -> asked path d at_ (command path ((at_ + (2 ^ 64 - d mod 2 ^ 64)) mod 2 ^ 64)).
Proof.
  intros path d at_ A. set (a := (at_ + (2 ^ 64 - d mod 2 ^ 64)) mod 2 ^ 64). assert (B : a < 2 ^ 64) by (apply N.mod_lt; discriminate).
  destruct (lower_digits_ok 16 a [] ltac:(exact B) ltac:(lia)) as (x & X & H). exists a, x. split; [exact B|]. split; [|split; [exact H|apply command_ok; assumption]].
  unfold a. rewrite N.add_mod_idemp_l by discriminate. pose proof (N.div_mod d (2 ^ 64) ltac:(discriminate)) as DM. pose proof (N.mod_lt d (2 ^ 64) ltac:(discriminate)) as M.
  replace (at_ + (2 ^ 64 - d mod 2 ^ 64) + d) with (at_ + (1 + d / 2 ^ 64) * 2 ^ 64).
  - rewrite N.mod_add by discriminate. apply N.mod_small, A.
  - set (y := d / 2 ^ 64) in *. set (z := d mod 2 ^ 64) in *. clearbody y z. subst d. change (2 ^ 64) with 18446744073709551616 in *. lia.
Qed.
Lemma texts_example :
  let l := [mksymbol (str "main") 0x1139] in
  let run := fun c => if bytes_eqb c (str "addr2line -C -a -s -p -f -e ./a.out -i 1180") then Some (str "0x1180: f at a.cpp:7" ++ [10]) else Some (str "0x0: ?? ??:0" ++ [10]) in
  let readable := fun n => if bytes_eqb n (str "_Z1gv") then Some (str "g()") else None in
  let fs := [(0x555555555170, str "./a.out(e+0x1) [0x555555555170]"); (0x555555555180, str "./a.out(_Z1fv+0x4) [0x555555555180]"); (0x555555555190, str "./a.out(_Z1gv+0x4) [0x555555555190]");
             (0x555555555140, str "./a.out(main+0x7) [0x555555555140]"); (0x7ffff7a2d840, str "/lib/libc.so.6(__libc_start_main+0xf0) [0x7ffff7a2d840]")] in
  let ts := [str "0x1180: f at a.cpp:7"; str "g()"; str "main"] in
  loaded false l 0x555555555139 0x555555554000 /\ understood fs /\
  (exists cmd, (forall at_, at_ < 2 ^ 64 -> asked (str "./a.out") 0x555555554000 at_ (cmd at_)) /\ told run readable cmd (skipn 1 fs) ts) /\
  stack_texts run readable (str "./a.out") false l 0x555555555139 1 fs = Some ts.
Proof.
  cbv zeta.
  assert (D1 : described 0x555555555170 (Some 0x55555555516f) (str "e") (str "./a.out(e+0x1) [0x555555555170]")) by (named (str "./a.out") (str "e") (str "1") (str " [0x555555555170]")).
  assert (D2 : described 0x555555555180 (Some 0x55555555517c) (str "_Z1fv") (str "./a.out(_Z1fv+0x4) [0x555555555180]")) by (named (str "./a.out") (str "_Z1fv") (str "4") (str " [0x555555555180]")).
  assert (D3 : described 0x555555555190 (Some 0x55555555518c) (str "_Z1gv") (str "./a.out(_Z1gv+0x4) [0x555555555190]")) by (named (str "./a.out") (str "_Z1gv") (str "4") (str " [0x555555555190]")).
  assert (D4 : described 0x555555555140 (Some 0x555555555139) (str "main") (str "./a.out(main+0x7) [0x555555555140]")) by (named (str "./a.out") (str "main") (str "7") (str " [0x555555555140]")).
  assert (D5 : described 0x7ffff7a2d840 (Some 0x7ffff7a2d750) (str "__libc_start_main") (str "/lib/libc.so.6(__libc_start_main+0xf0) [0x7ffff7a2d840]")) by (named (str "/lib/libc.so.6") (str "__libc_start_main") (str "f0") (str " [0x7ffff7a2d840]")).
  split; [|split; [|split]].
  - split; [reflexivity|]. eexists. split; [exists [], []; split; [reflexivity|split; [reflexivity|constructor]]|reflexivity].
  - repeat constructor; cbn [fst snd]; eauto.
  - exists (fun at_ => command (str "./a.out") ((at_ + (2 ^ 64 - 0x555555554000 mod 2 ^ 64)) mod 2 ^ 64)). split; [intros at_ A; apply asked_some, A|].
    assert (Q : forall c, bytes_eqb c (str "addr2line -C -a -s -p -f -e ./a.out -i 1180") = false -> silent (fun c => if bytes_eqb c (str "addr2line -C -a -s -p -f -e ./a.out -i 1180") then Some (str "0x1180: f at a.cpp:7" ++ [10]) else Some (str "0x0: ?? ??:0" ++ [10])) c).
    { intros c C. right. right. rewrite C. exists (str "0x0: ?? ??:0" ++ [10]), (str "0x0: ?? ??:0"). split; [reflexivity|]. split; [split; [notin|right; exists []; reflexivity]|]. split; [cbn; lia|].
      exists (str "0x0: ?? "), (str "0"). reflexivity. }
    cbn [skipn]. eapply told_more; [exact D2|unfold entry_point; intuition discriminate| |].
    { apply said. exists (str "0x1180: f at a.cpp:7" ++ [10]), (str "0x1180: f at a.cpp:7"). split; [reflexivity|]. split; [split; [notin|right; exists []; reflexivity]|]. split; [cbn; lia|].
      split; [intros W; apply contains_within in W; vm_compute in W; discriminate|]. split; [|discriminate]. exists []. split; [reflexivity|]. split; [constructor|].
      intros t' c E. change (str "0x1180: f at a.cpp:7") with (str "0x1180: f at a.cpp:" ++ [55]) in E. apply app_inj_tail in E. destruct E as (_ & <-). unfold blank. lia. }
    eapply told_more; [exact D3|unfold entry_point; intuition discriminate| |].
    { apply read; [apply Q; reflexivity|discriminate|reflexivity|cbn; lia|discriminate]. }
    eapply told_last; [exact D4|left; reflexivity|]. apply raw; [apply Q; reflexivity|discriminate|reflexivity].
  - vm_compute. reflexivity.
Qed.
Lemma path_overrun : exists run readable path lu l main d fs, loaded lu l main d /\ understood fs /\ stack_texts run readable path lu l main 0 fs = None.
Proof.
  exists (fun _ => None), (fun _ => None), (repeat 97 224), false, [mksymbol (str "main") 0x1139], 0x1139, 0, [(5, str "[0x5]")].
  split; [|split]; [split; [reflexivity|]; eexists; split; [exists [], []; split; [reflexivity|split; [reflexivity|constructor]]|reflexivity]|repeat constructor; exists None, []; apply bare; notin|vm_compute; reflexivity].
Qed.
Lemma readable_overrun : exists run readable lu l main d fs, loaded lu l main d /\ understood fs /\ (forall c, silent run c) /\ stack_texts run readable (str "a.out") lu l main 0 fs = None.
Proof.
  exists (fun _ => None), (fun _ => Some (repeat 97 1024)), false, [mksymbol (str "main") 0x1139], 0x1139, 0, [(5, str "./a.out(_Z1fv+0x4) [0x5]")].
  split; [|split; [|split]]; [split; [reflexivity|]; eexists; split; [exists [], []; split; [reflexivity|split; [reflexivity|constructor]]|reflexivity]|repeat constructor; exists (Some 1), (str "_Z1fv"); named (str "./a.out") (str "_Z1fv") (str "4") (str " [0x5]")|intros c; left; reflexivity|vm_compute; reflexivity].
Qed.
