(** Arguments for the cases beside the theorems of C99. *)
From Coq Require Import List NArith Bool Arith Lia.
From Verif Require Import Base MacroModel MacroSpec MacroSpec2 MacroSpec4 MacroProofs15 MacroProofs16 MacroProofs18 MacroProofs21 MacroProofs23.
Import ListNotations.
Local Open Scope N_scope.

Lemma becomes_unique : forall s a b, becomes s a -> becomes s b -> a = b.
Proof.
  intros s a b A B. destruct (A [] [] ltac:(constructor) ltac:(constructor)) as [f Hf]. destruct (B [] [] ltac:(constructor) ltac:(constructor)) as [g Hg].
  specialize (Hf (f + g)%nat ltac:(lia)). specialize (Hg (f + g)%nat ltac:(lia)). rewrite Hf in Hg. injection Hg as E. rewrite !app_nil_r in E. exact E.
Qed.
Lemma stubs_given : forall p r args, sound p -> means r -> (forall f, p = Function f -> as_given r) -> Forall value args -> (length args <= 63)%nat ->
  becomes (macro_use (str "H2STUBS") (written p ++ [fst r; group (listed args)])) (kept (str "h2_stuber") p (snd r ++ group (listed args)) ++ words (str "=") ++ lambda p args (snd r)).
Proof.
  intros p r args Hp Hr G Ha La. pose proof (stubs_becomes p r Hp Hr args Ha La) as B. destruct p as [f|c m|o c m]; [|exact B|exact B].
  specialize (G f eq_refl). unfold as_given in G. destruct r as [g t]. cbn [fst snd] in *. subst t. exact B.
Qed.
(** one name for a function and for a method, a class and a type with a comma *)
Definition a_p : arg := ([i_p], [i_p]).
Definition a_q : arg := ([i_q], [i_q]).
Definition a_pq : arg := (group [i_p; TComma; i_q], [i_p; TComma; i_q]).
Definition sig : list tok := i_int :: TLp :: [i_p; TComma; i_q] ++ TRp :: [].
Definition a_sig : arg := (sig, sig).
Lemma means_p : means a_p. Proof. left. split; [exact (one_bare _ p_word)|reflexivity]. Qed.
Lemma means_q : means a_q. Proof. left. split; [exact (one_bare _ q_word)|reflexivity]. Qed.
Lemma means_pq : means a_pq. Proof. right. split; [exact pq_text|reflexivity]. Qed.
Lemma means_sig : means a_sig.
Proof.
  left. split; [|reflexivity]. split; [split; [|discriminate]|intros a _ E; discriminate E]. apply piece_word; [exact int_word|]. apply piece_group; [exact pq_text|constructor].
Qed.
Lemma p_value : value [i_p]. Proof. exact (proj1 (one_bare _ p_word)). Qed.
Lemma q_value : value [i_q]. Proof. exact (proj1 (one_bare _ q_word)). Qed.
Lemma packs_value : Forall value packs. Proof. exact (proj1 packs_countable). Qed.
Lemma packs_few : (length packs <= 63)%nat. Proof. cbn. lia. Qed.
Lemma result_stays : exists f r args, means f /\ means r /\ Forall value args /\ (length args <= 63)%nat /\
  becomes (macro_use (str "H2STUBS") [fst f; fst r; group (listed args)]) (kept (str "h2_stuber") (Function f) (snd r ++ group (listed args)) ++ words (str "=") ++ lambda (Function f) args (group (snd r))) /\
  ~ becomes (macro_use (str "H2STUBS") [fst f; fst r; group (listed args)]) (kept (str "h2_stuber") (Function f) (snd r ++ group (listed args)) ++ words (str "=") ++ lambda (Function f) args (snd r)).
Proof.
  exists a_p, a_pq, [[i_q]]. split; [exact means_p|]. split; [exact means_pq|]. assert (V : Forall value [[i_q]]) by (constructor; [exact q_value|constructor]). split; [exact V|]. split; [cbn; lia|].
  pose proof (stubs_becomes (Function a_p) a_pq means_p means_pq [[i_q]] V ltac:(cbn; lia)) as B. split; [exact B|].
  intro C. pose proof (f_equal (@length tok) (becomes_unique _ _ _ B C)) as E. vm_compute in E. discriminate E.
Qed.
