From Coq Require Import List NArith ZArith Bool Lia Reals Lra SpecFloat Sorting.Sorted.
Import ListNotations.
From Verif Require Import Outcome Words Floats FloatsR HealthFloat Bits_Model PNN_Model Train_Model RMA3_Proofs Tester_Model Tester_Spec Tester_Proofs Tester2_Proofs Tester4_Proofs Search_Model Search_Spec Search_Proofs Search2_Proofs Search3_Proofs.
Local Open Scope N_scope.
Local Open Scope outcome_scope.

Section Lib.
Variables (flog fexp fpow2 : sf -> sf) (noise : N -> sf * sf).
Notation TC := (test_config flog fexp fpow2 noise).
Notation TT := (tests_to flog fexp fpow2 noise).
Hypothesis LIB : lib_ok flog fexp fpow2 noise.
Variables (ints : nat -> N) (reals : nat -> sf).

(** ** from s0 to s the configurations [new], in this order and none of them tested before, have been tested *)
Section Progress.
Variables (s0 : srch) (mc : option nat).
Hypothesis SEP : separated (s_drops s0).
Hypothesis T : trials_ok mc.
Definition progress (s : srch) (new : list ncfg) : Prop :=
  same_setup s0 s /\ tested_ok s /\ (forall k r, In (k, r) (s_tested s) <-> In (k, r) (s_tested s0) \/ (In k new /\ TT (s_env s0) mc k r)) /\
  NoDup new /\ (forall k, In k new -> ~ In k (keys s0) /\ exists r, TT (s_env s0) mc k r) /\ length (s_tested s) = (length (s_tested s0) + length new)%nat /\
  exists rs, t_results (s_tester s) = t_results (s_tester s0) ++ rs /\ length rs = match mc with None => O | Some _ => length new end.
Lemma progress_start : tested_ok s0 -> progress s0 [].
Proof.
  intros K. split; [apply setup_refl|]. split; [exact K|]. split; [cbn [In]; tauto|]. split; [constructor|]. split; [intros k []|]. split; [cbn; lia|]. exists []. split; [symmetry; apply app_nil_r|]. clear T. destruct mc; reflexivity.
Qed.
Lemma progress_save s new : progress s new -> progress (saveResults s) new.
Proof. intros (A & B & C & D & E & F & G). split; [exact A|]. split; [exact B|]. split; [exact C|]. split; [exact D|]. split; [exact E|]. split; [exact F|exact G]. Qed.
Lemma progress_sound s new : progress s new -> sound (s_drops s0) (s_tested s).
Proof. intros (A & B & _). rewrite <- (proj1 (proj2 (proj2 A))). apply ok_sound. exact B. Qed.
Lemma progress_step s new c x : progress s new -> In (n_drop c) (s_drops s0) -> map_find c (s_tested s) = None -> TC s c mc = Ret x ->
  progress (store (snd x) c (fst x)) (new ++ [c]) /\ TT (s_env s0) mc c (fst x) /\ inr 10 100 (r_pres (fst x)) /\ ~ In c (keys s0).
Proof.
  intros P Dc MF E. pose proof (progress_sound _ _ P) as SO. destruct P as (SS & K & M & N & NW & L & rs & RS & LR).
  destruct (test_config_inv _ _ _ _ _ _ _ _ E) as (TY & SY & KY & RY). assert (EE : s_env s = s_env s0) by apply SS. assert (ED : s_drops s = s_drops s0) by apply SS. rewrite EE in TY.
  assert (D01 : inr 0 1 (n_drop c)) by (apply (drop_ok _ SEP); exact Dc). destruct (tests_sane _ _ _ _ LIB _ _ _ _ T D01 TY) as [SA AB].
  pose proof (proj1 (map_find_none _ SEP _ c SO Dc) MF) as NF.
  assert (NI : ~ In c new). { intros I. apply NF. apply in_map_iff. exists (c, fst x). split; [reflexivity|]. apply M. right. split; [exact I|exact TY]. }
  assert (NK : ~ In c (keys s0)). { intros I. apply NF. unfold keys in I. apply in_map_iff in I. destruct I as ([k r] & E1 & I). cbn [fst] in E1. subst k. apply in_map_iff. exists (c, r). split; [reflexivity|]. apply M. left. exact I. }
  split; [|split; [exact TY|split; [exact SA|exact NK]]].
  split; [eapply setup_trans; [exact SS|]; eapply setup_trans; [exact SY|]; repeat split|].
  split. { apply store_ok; try assumption; [rewrite (proj1 (proj2 (proj2 SY))), ED; exact SEP| |rewrite (proj1 (proj2 (proj2 SY))), ED; exact Dc|rewrite (proj1 SY), EE; exact AB]. destruct K as [K1 K2]. split; rewrite KY; [exact K1|]. rewrite (proj1 (proj2 (proj2 SY))), (proj1 SY). exact K2. }
  split. { intros k r. unfold store. cbn [s_tested with_tested]. rewrite KY, (map_set_in _ SEP _ _ _ SO Dc), M, in_app_iff. cbn [In]. split.
    - intros [[-> ->]|[NE [A|[A B]]]]; auto.
    - intros [A|[[A|[A|[]]] B]].
      + right. split; [|left; exact A]. intros ->. apply NK. exact (in_map fst _ _ A).
      + right. split; [intros ->; contradiction|right; auto].
      + subst k. left. split; [reflexivity|exact (tests_fun _ _ _ _ _ _ _ _ _ B TY)]. }
  split. { apply NoDup_app; [exact N|repeat constructor; intros []|]. intros y Y1 [Y2|[]]. subst y. exact (NI Y1). }
  split. { intros k A. apply in_app_iff in A. destruct A as [A|[<-|[]]]; [exact (NW k A)|]. split; [exact NK|eauto]. }
  split. { unfold store. cbn [s_tested with_tested]. rewrite KY, (map_set_length_new (s_drops s0) _ _ _ MF SO Dc), app_length, L. cbn [length]. lia. }
  unfold store. cbn [s_tester with_tested]. rewrite RY, RS. destruct mc as [n|].
  - exists (rs ++ [fst x]). rewrite app_assoc. split; [reflexivity|]. rewrite !app_length, LR. reflexivity.
  - exists rs. rewrite app_nil_r. split; [reflexivity|exact LR].
Qed.

(** ** random search *)
Lemma random_drop c : random_member s0 c -> In (n_drop c) (s_drops s0).
Proof. intros (h & (_ & _ & D & _) & _). exact D. Qed.
Lemma random_loop_inv max : forall fuel s b i pos new x, progress s new -> best_inv (TT (s_env s0) mc) b new -> (forall c, In c new -> random_member s0 c) -> i = N.of_nat (length new) -> i <= max ->
  random_loop flog fexp fpow2 noise ints fuel s b i max mc pos = Ret x ->
  let '(s', b', _) := x in exists new', progress s' new' /\ best_inv (TT (s_env s0) mc) b' new' /\ (forall c, In c new' -> random_member s0 c) /\ N.of_nat (length new') = max.
Proof.
  induction fuel as [|fuel IH]; intros s b i pos new x P B RM I LE H; cbn [random_loop] in H; [discriminate H|].
  destruct (N.ltb_spec i max) as [LT|GE]; [|injection H as <-; exists new; repeat (split; [assumption|]); lia].
  destruct (random_config ints s pos) as [g| | |] eqn:G; cbn [obind] in H; try discriminate H.
  assert (RG : random_member s0 (fst g)) by (apply (setup_random s0 s _ (proj1 P)); exact (random_valid _ _ _ _ G)).
  destruct (map_find (fst g) (s_tested s)) as [r|] eqn:MF; [exact (IH s b i _ new x P B RM I LE H)|].
  destruct (TC s (fst g) mc) as [y| | |] eqn:E; cbn [obind] in H; try discriminate H.
  destruct (progress_step s new (fst g) y P (random_drop _ RG) MF E) as (P1 & TY & SA & _).
  refine (IH _ _ _ _ (new ++ [fst g]) x _ (better_step _ _ _ _ _ B TY SA) _ _ _ H).
  - destruct (i mod 10 =? 0); [apply progress_save|]; exact P1.
  - intros c C. apply in_app_iff in C. destruct C as [C|[<-|[]]]; [exact (RM c C)|exact RG].
  - rewrite app_length. cbn [length]. lia.
  - lia.
Qed.
(** with everything testable the loop returns or goes on *)
Lemma random_loop_total max : s_widths s0 <> [] -> s_drops s0 <> [] -> s_levels s0 <> [] -> (forall c, random_member s0 c -> testable c) -> forall fuel s b i pos new, progress s new ->
  (exists x, random_loop flog fexp fpow2 noise ints fuel s b i max mc pos = Ret x) \/ random_loop flog fexp fpow2 noise ints fuel s b i max mc pos = OutOfFuel.
Proof.
  intros W D L TS. induction fuel as [|fuel IH]; intros s b i pos new P; cbn [random_loop]; [right; reflexivity|]. destruct (i <? max); [|left; eauto].
  assert (SS : same_setup s0 s) by apply P. destruct (random_defined ints s pos) as [g G]; try (destruct SS as (_ & SW & SD & SL & _); congruence). rewrite G. cbn [obind].
  assert (RG : random_member s0 (fst g)) by (apply (setup_random s0 s _ SS); exact (random_valid _ _ _ _ G)).
  destruct (map_find (fst g) (s_tested s)) as [r|] eqn:MF; [exact (IH s b i (snd g) new P)|].
  destruct (tests_defined flog fexp fpow2 noise (s_env s) mc (fst g)) as [r TR]; [apply LIB|apply TS; exact RG|apply (drop_ok _ SEP); apply random_drop; exact RG|].
  destruct (test_config_ex _ _ _ _ s (fst g) mc r TR) as [s1 E]. rewrite E. cbn [obind].
  destruct (progress_step s new (fst g) _ P (random_drop _ RG) MF E) as (P1 & _). cbn [fst snd] in *.
  apply (IH _ _ _ _ (new ++ [fst g])). destruct (i mod 10 =? 0); [apply progress_save|]; exact P1.
Qed.
End Progress.
Lemma random_inv fuel s max mc pos a s' : separated (s_drops s) -> trials_ok mc -> tested_ok s -> randomSearch flog fexp fpow2 noise ints fuel s max mc pos = Ret (a, s') ->
  exists new, progress s mc s' new /\ (forall c, In c new -> random_member s c) /\ N.of_nat (length new) = max /\ (exists r, first_winner (TT (s_env s) mc) new (sr_cfg a) r /\ reports a r) /\ sr_iter a = max /\ s_file s' = exported s'.
Proof.
  intros SEP T K H. unfold randomSearch in H. destruct (random_loop _ _ _ _ _ fuel s best0 0 max mc pos) as [[[s1 b1] p1]| | |] eqn:G; cbn [obind] in H; try discriminate H.
  destruct (random_loop_inv s mc SEP T max fuel s best0 0 pos [] _ (progress_start s mc K) (or_introl (conj eq_refl eq_refl)) ltac:(intros c []) eq_refl ltac:(lia) G) as (new & P & B & RM & L).
  destruct (finish b1 max) as [a'| | |] eqn:F; cbn [obind] in H; try discriminate H. injection H as <- <-. destruct (finish_inv _ _ _ _ _ B F) as (r & W & RP & IT).
  exists new. split; [apply progress_save; exact P|]. split; [exact RM|]. split; [exact L|]. split; [exists r; auto|]. split; [exact IT|reflexivity].
Qed.
(** not enough configurations left: the search never returns *)
Lemma random_hangs s max mc pos L : separated (s_drops s) -> trials_ok mc -> tested_ok s -> s_widths s <> [] -> s_drops s <> [] -> s_levels s <> [] -> (forall c, random_member s c -> testable c) ->
  (forall c, random_member s c -> ~ In c (keys s) -> In c L) -> N.of_nat (length L) < max -> forall fuel, randomSearch flog fexp fpow2 noise ints fuel s max mc pos = OutOfFuel.
Proof.
  intros SEP T K W D LV TS CO LT fuel. unfold randomSearch.
  destruct (random_loop_total s mc SEP T max W D LV TS fuel s best0 0 pos [] (progress_start s mc K)) as [[[[s1 b1] p1] G]|G]; [|rewrite G; reflexivity].
  exfalso. destruct (random_loop_inv s mc SEP T max fuel s best0 0 pos [] _ (progress_start s mc K) (or_introl (conj eq_refl eq_refl)) ltac:(intros c []) eq_refl ltac:(lia) G) as (new & P & B & RM & LN).
  destruct P as (_ & _ & _ & ND & NW & _). assert (I : incl new L). { intros c C. apply CO; [exact (RM c C)|apply (NW c C)]. } pose proof (NoDup_incl_length ND I). lia.
Qed.

(** ** evolution *)
Lemma argmax_spec l : forall i bi bv, Forall (inr 10 100) l -> inr 10 100 bv -> exists v, inr 10 100 v /\ (R bv <= R v)%R /\ Forall (fun x => (R x <= R v)%R) l /\
  ((argmax i bi bv l = bi /\ v = bv) \/ exists k, argmax i bi bv l = (i + k)%nat /\ nth_error l k = Some v).
Proof.
  induction l as [|x l IH]; intros i bi bv F V; cbn [argmax]; [exists bv; split; [exact V|]; split; [lra|]; split; [constructor|left; auto]|].
  inversion F as [|? ? X F']; subst. destruct (flt bv x) eqn:C.
  - apply (flt_d _ _ (proj1 V) (proj1 X)) in C. destruct (IH (S i) i x F' X) as (v & IV & LE & ALL & CS). exists v. split; [exact IV|]. split; [lra|]. split; [constructor; assumption|]. right. destruct CS as [[E ->]|(k & E & N)]; [exists O; split; [lia|reflexivity]|exists (S k); split; [lia|exact N]].
  - apply (flt_dF _ _ (proj1 V) (proj1 X)) in C. destruct (IH (S i) bi bv F' V) as (v & IV & LE & ALL & CS). exists v. split; [exact IV|]. split; [lra|]. split; [constructor; [lra|assumption]|]. destruct CS as [CS|(k & E & N)]; [left; exact CS|right; exists (S k); split; [lia|exact N]].
Qed.
Lemma best_index_spec fit : fit <> [] -> Forall (inr 10 100) fit -> exists v, nth_error fit (best_index fit) = Some v /\ Forall (fun x => (R x <= R v)%R) fit.
Proof.
  intros NE F. destruct fit as [|x l]; [contradiction|]. inversion F as [|? ? X F']; subst. unfold best_index. destruct (argmax_spec l 1 0 x F' X) as (v & IV & LE & ALL & CS). exists v. split; [|constructor; assumption].
  destruct CS as [[-> ->]|(k & -> & N)]; [reflexivity|exact N].
Qed.
Section Evo.
Variables (s0 : srch) (mc : option nat).
Hypothesis SEP : separated (s_drops s0).
Hypothesis T : trials_ok mc.
Hypothesis K0 : tested_ok s0.
Notation KN := (known flog fexp fpow2 noise s0 mc).
Notation P := (progress s0 mc).
(** the new ones among cs, each once *)
Definition covers (new cs : list ncfg) : Prop := (forall c, In c new -> In c cs) /\ (forall c, In c cs -> ~ In c (keys s0) -> In c new).
Lemma evaluate_inv : forall pop s b new seen x, P s new -> covers new seen -> best_inv KN b seen -> (forall c, In c pop -> In (n_drop c) (s_drops s0)) ->
  evaluate flog fexp fpow2 noise s b mc pop = Ret x ->
  let '(s', b', fit) := x in exists new', P s' new' /\ covers new' (seen ++ pop) /\ best_inv KN b' (seen ++ pop) /\ Forall2 (fun c v => exists r, KN c r /\ v = r_pres r /\ inr 10 100 v) pop fit.
Proof.
  induction pop as [|c pop IH]; intros s b new seen x PR CV B DC H; cbn [evaluate] in H.
  - injection H as <-. rewrite app_nil_r. exists new. repeat (split; [assumption|]). constructor.
  - assert (Dc : In (n_drop c) (s_drops s0)) by (apply DC; left; reflexivity).
    destruct (match map_find c (s_tested s) with Some _ => Ret s | None => _ end) as [s1| | |] eqn:ST; cbn [obind] in H; try discriminate H.
    assert (Q : exists new1 r, P s1 new1 /\ covers new1 (seen ++ [c]) /\ map_find c (s_tested s1) = Some r /\ KN c r /\ inr 10 100 (r_pres r)).
    { destruct (map_find c (s_tested s)) as [r|] eqn:MF.
      - injection ST as <-. pose proof (proj1 (map_find_iff _ SEP _ c r (progress_sound _ _ _ _ PR) Dc) MF) as IN.
        assert (KR : KN c r). { destruct PR as (_ & _ & M & _ & NW & _). apply M in IN. destruct IN as [IN|[IN TR]]; [left; exact IN|right; split; [apply (NW c IN)|exact TR]]. }
        exists new, r. split; [exact PR|]. split.
        { destruct CV as [C1 C2]. split; [intros k KI; apply in_app_iff; left; exact (C1 k KI)|]. intros k KI NK. apply in_app_iff in KI. destruct KI as [KI|[<-|[]]]; [exact (C2 k KI NK)|]. destruct PR as (_ & _ & M & _). apply M in IN. destruct IN as [IN|[IN _]]; [|exact IN]. exfalso. apply NK. exact (in_map fst _ _ IN). }
        split; [exact MF|]. split; [exact KR|]. destruct PR as (_ & KO & _). apply (proj2 KO c r IN).
      - destruct (TC s c mc) as [y| | |] eqn:E; cbn [obind] in ST; try discriminate ST. injection ST as <-. destruct (progress_step s0 mc SEP T s new c y PR Dc MF E) as (P1 & TY & SA & NK).
        exists (new ++ [c]), (fst y). split; [exact P1|]. split.
        { destruct CV as [C1 C2]. split; intros k; rewrite !in_app_iff; [intros [KI|KI]; [left; exact (C1 k KI)|right; exact KI]|]. intros [KI|KI] NN; [left; exact (C2 k KI NN)|right; exact KI]. }
        split. { apply (map_find_iff _ SEP _ c _ (progress_sound _ _ _ _ P1) Dc). destruct P1 as (_ & _ & M & _). apply M. right. split; [apply in_app_iff; right; left; reflexivity|exact TY]. }
        split; [right; split; assumption|exact SA]. }
    clear ST. destruct Q as (new1 & r & P1 & CV1 & MF & KR & SA). rewrite MF in H.
    destruct (evaluate _ _ _ _ s1 (better b c r) mc pop) as [[[s2 b2] fit]| | |] eqn:EV; cbn [obind] in H; try discriminate H. injection H as <-.
    destruct (IH s1 _ new1 (seen ++ [c]) _ P1 CV1 (better_step _ _ _ _ _ B KR SA) ltac:(intros d HD; apply DC; right; exact HD) EV) as (new2 & P2 & CV2 & B2 & F2).
    rewrite <- app_assoc in CV2, B2. cbn [app] in CV2, B2. exists new2. split; [exact P2|]. split; [exact CV2|]. split; [exact B2|]. constructor; [exists r; auto|exact F2].
Qed.
Lemma evaluate_defined : forall pop s b new, P s new -> (forall c, In c pop -> In (n_drop c) (s_drops s0) /\ testable c) -> exists x, evaluate flog fexp fpow2 noise s b mc pop = Ret x.
Proof.
  induction pop as [|c pop IH]; intros s b new PR A; cbn [evaluate]; [eauto|]. destruct (A c (or_introl eq_refl)) as [Dc Tc].
  destruct (map_find c (s_tested s)) as [r|] eqn:MF; cbn [obind].
  - rewrite MF. destruct (IH s (better b c r) new PR ltac:(intros d HD; apply A; right; exact HD)) as [[[s2 b2] fit] ->]. cbn [obind]. eauto.
  - destruct (tests_defined flog fexp fpow2 noise (s_env s) mc c) as [r TR]; [apply LIB|exact Tc|apply (drop_ok _ SEP); exact Dc|].
    destruct (test_config_ex _ _ _ _ s c mc r TR) as [s1 E]. rewrite E. cbn [obind fst snd]. destruct (progress_step s0 mc SEP T s new c _ PR Dc MF E) as (P1 & TY & SA & NK). cbn [fst snd] in *.
    destruct (map_find c (s_tested (store s1 c r))) as [r'|] eqn:MF'.
    + destruct (IH (store s1 c r) (better b c r') _ P1 ltac:(intros d HD; apply A; right; exact HD)) as [[[s2 b2] fit] ->]. cbn [obind]. eauto.
    + exfalso. apply (map_find_none _ SEP _ c (progress_sound _ _ _ _ P1) Dc) in MF'. apply MF'. apply in_map_iff. exists (c, r). split; [reflexivity|]. apply P1. right. split; [apply in_app_iff; right; left; reflexivity|exact TY].
Qed.
Lemma tournament_lt fit pos : fit <> [] -> (tournament ints fit pos < length fit)%nat.
Proof.
  intros NE. unfold tournament. assert (0 < N.of_nat (length fit)). { destruct fit; [contradiction|]. cbn [length]. lia. }
  pose proof (N.mod_lt (ints pos) (N.of_nat (length fit)) ltac:(lia)). pose proof (N.mod_lt (ints (S pos)) (N.of_nat (length fit)) ltac:(lia)). destruct (fgt _ _); lia.
Qed.
Lemma breed_inv s pop fit rate : pop <> [] -> length fit = length pop -> (forall c, In c pop -> random_member s c) -> forall k pos x, breed ints reals s pop fit rate k pos = Ret x -> length (fst x) = k /\ forall c, In c (fst x) -> random_member s c.
Proof.
  intros NE LF RM. induction k as [|k IH]; intros pos x; cbn [breed]; [intros E; injection E as <-; split; [reflexivity|intros c []]|].
  set (a := nth _ pop default_cfg). set (b := nth _ pop default_cfg). intros H.
  assert (NF : fit <> []) by (intros ->; destruct pop; [contradiction|discriminate LF]).
  assert (RA : random_member s a) by (apply RM, nth_In; rewrite <- LF; apply tournament_lt; exact NF).
  assert (RB : random_member s b) by (apply RM, nth_In; rewrite <- LF; apply tournament_lt; exact NF).
  destruct (mutate_config _ _ _ _ _ _) as [m| | |] eqn:MU; cbn [obind] in H; try discriminate H.
  destruct (breed ints reals s pop fit rate k (snd m)) as [y| | |] eqn:BR; cbn [obind] in H; try discriminate H. injection H as <-. cbn [fst length]. destruct (IH _ _ BR) as [L A]. split; [lia|].
  intros c [<-|C]; [|exact (A c C)]. exact (mutate_valid _ _ _ _ _ _ _ (crossover_valid _ _ _ _ _ RA RB) MU).
Qed.
Lemma breed_defined s pop fit rate : s_widths s <> [] -> s_drops s <> [] -> s_levels s <> [] -> forall k pos, exists x, breed ints reals s pop fit rate k pos = Ret x.
Proof.
  intros W D L. induction k as [|k IH]; intros pos; cbn [breed]; [eauto|].
  match goal with |- context [mutate_config ?i ?r ?s ?c ?q ?p] => destruct (mutate_defined i r s c q p W D L) as [m ->] end. cbn [obind]. destruct (IH (snd m)) as [y ->]. cbn [obind]. eauto.
Qed.
Lemma setup_cross a b : same_setup a b -> forall x y pos, crossover ints b x y pos = crossover ints a x y pos.
Proof. intros (?&W&D&L&I&O&F&R). intros. unfold crossover. rewrite I, O. reflexivity. Qed.
Lemma forall2_nth {A B} (Q : A -> B -> Prop) l l' n y : Forall2 Q l l' -> nth_error l' n = Some y -> exists x, nth_error l n = Some x /\ Q x y.
Proof. intros F. revert n. induction F as [|a b l l' H F IH]; intros [|n] E; try discriminate E; [injection E as <-; exists a; auto|exact (IH n E)]. Qed.
Lemma Forall2_length {A B} (Q : A -> B -> Prop) l l' : Forall2 Q l l' -> length l = length l'.
Proof. intros F. induction F; cbn; congruence. Qed.
Lemma forall2_in {A B} (Q : A -> B -> Prop) l l' x : Forall2 Q l l' -> In x l -> exists y, In y l' /\ Q x y.
Proof. intros F. induction F as [|a b l l2 H F IH]; [intros []|]. intros [<-|I]; [exists b; split; [left; reflexivity|exact H]|]. destruct (IH I) as (y & Y & QY). exists y. split; [right; exact Y|exact QY]. Qed.
Lemma evolve_inv rate : forall gens s b new seen pop pos x, pop <> [] -> P s new -> covers new seen -> best_inv KN b seen -> (forall c, In c pop -> random_member s0 c) ->
  evolve flog fexp fpow2 noise ints reals gens s b mc rate pop pos = Ret x ->
  let '(s', b', _) := x in exists new' pops, P s' new' /\ covers new' (seen ++ concat pops) /\ best_inv KN b' (seen ++ concat pops) /\ length pops = gens /\
    (forall p, In p pops -> length p = length pop /\ forall c, In c p -> random_member s0 c) /\ elitist KN pops /\ (gens <> O -> s_file s' = exported s' /\ hd_error pops = Some pop).
Proof.
  induction gens as [|gens IH]; intros s b new seen pop pos x NE PR CV B RM H; cbn [evolve] in H.
  - injection H as <-. exists new, []. cbn [concat]. rewrite app_nil_r. split; [assumption|]. split; [assumption|]. split; [assumption|]. split; [reflexivity|]. split; [intros p []|]. split; [exact I|congruence].
  - destruct (evaluate _ _ _ _ s b mc pop) as [[[s1 b1] fit]| | |] eqn:EV; cbn [obind] in H; try discriminate H.
    destruct (evaluate_inv _ _ _ _ _ _ PR CV B ltac:(intros c C; apply random_drop; exact (RM c C)) EV) as (new1 & P1 & CV1 & B1 & F1).
    destruct (nth_error pop (best_index fit)) as [elite|] eqn:EL; [|discriminate H].
    destruct (breed ints reals s1 pop fit rate (length pop - 1) pos) as [z| | |] eqn:BR; cbn [obind] in H; try discriminate H.
    pose proof (Forall2_length _ _ _ F1) as LF. assert (SS : same_setup s0 s1) by apply P1.
    destruct (breed_inv s1 pop fit rate NE (eq_sym LF) ltac:(intros c C; apply (setup_random s0 s1 _ SS); exact (RM c C)) _ _ _ BR) as [LZ RZ].
    assert (RQ : forall c, In c (elite :: fst z) -> random_member s0 c). { intros c [<-|C]; [apply RM; exact (nth_error_In _ _ EL)|apply (setup_random s0 s1 _ SS); exact (RZ c C)]. }
    destruct x as [[s' b'] pop']. destruct (IH (saveResults s1) b1 new1 (seen ++ pop) (elite :: fst z) (snd z) _ ltac:(discriminate) (progress_save _ _ _ _ P1) CV1 B1 RQ H) as (new' & pops & P' & CV' & B' & LP & AP & EP & FP).
    assert (LPOP : S (length (fst z)) = length pop) by (destruct pop; [contradiction|cbn [length] in *; lia]).
    exists new', (pop :: pops). cbn [concat length]. rewrite <- app_assoc in CV', B'. split; [exact P'|]. split; [exact CV'|]. split; [exact B'|]. split; [lia|]. split.
    { intros p [<-|HP]; [split; [reflexivity|exact RM]|]. destruct (AP p HP) as [A1 A2]. split; [rewrite A1; exact LPOP|exact A2]. }
    split.
    { destruct pops as [|q pops]; [exact I|]. cbn [elitist]. split; [|exact EP]. cbn [length] in LP. destruct (FP ltac:(lia)) as [_ HD]. cbn [hd_error] in HD. injection HD as ->. exists elite. split; [reflexivity|].
      assert (SF : Forall (inr 10 100) fit). { clear -F1. induction F1 as [|c v l l' H F IH]; constructor; [destruct H as (r & _ & _ & H); exact H|exact IH]. }
      destruct (best_index_spec fit) as (v & NV & MX); [intros ->; destruct pop; [contradiction|discriminate LF]|exact SF|].
      destruct (forall2_nth _ _ _ _ _ F1 NV) as (c & NC & r & KR & VR & _). assert (c = elite) by congruence. subst c.
      split; [exact (nth_error_In _ _ EL)|]. exists r. split; [exact KR|]. intros d D. destruct (forall2_in _ _ _ _ F1 D) as (w & W & r' & KR' & WR & _). exists r'. split; [exact KR'|]. rewrite <- WR, <- VR. rewrite Forall_forall in MX. exact (MX w W). }
    intros _. split; [|reflexivity]. destruct gens as [|gens]; [|apply FP; discriminate]. cbn [evolve] in H. injection H as <- <- <-. reflexivity.
Qed.
Lemma evolve_defined rate : s_widths s0 <> [] -> s_drops s0 <> [] -> s_levels s0 <> [] -> (forall c, random_member s0 c -> testable c) -> forall gens s b new seen pop pos, pop <> [] -> P s new -> covers new seen -> best_inv KN b seen -> (forall c, In c pop -> random_member s0 c) ->
  exists x, evolve flog fexp fpow2 noise ints reals gens s b mc rate pop pos = Ret x.
Proof.
  intros W D L TS. induction gens as [|gens IH]; intros s b new seen pop pos NE PR CV B RM; cbn [evolve]; [eauto|].
  destruct (evaluate_defined pop s b new PR) as [[[s1 b1] fit] EV]. { intros c C. split; [apply random_drop; exact (RM c C)|apply TS; exact (RM c C)]. }
  rewrite EV. cbn [obind]. destruct (evaluate_inv _ _ _ _ _ _ PR CV B ltac:(intros c C; apply random_drop; exact (RM c C)) EV) as (new1 & P1 & CV1 & B1 & F1).
  pose proof (Forall2_length _ _ _ F1) as LF. assert (SS : same_setup s0 s1) by apply P1.
  assert (SF : Forall (inr 10 100) fit). { clear -F1. induction F1 as [|c v l l' H F IH]; constructor; [destruct H as (r & _ & _ & H); exact H|exact IH]. }
  destruct (best_index_spec fit) as (v & NV & MX); [intros ->; destruct pop; [contradiction|discriminate LF]|exact SF|].
  destruct (forall2_nth _ _ _ _ _ F1 NV) as (c & NC & _). rewrite NC.
  destruct (breed_defined s1 pop fit rate) with (k := (length pop - 1)%nat) (pos := pos) as [z BR]; try (destruct SS as (_ & SW & SD & SL & _); congruence). rewrite BR. cbn [obind].
  destruct (breed_inv s1 pop fit rate NE (eq_sym LF) ltac:(intros d C; apply (setup_random s0 s1 _ SS); exact (RM d C)) _ _ _ BR) as [LZ RZ].
  apply (IH _ _ new1 (seen ++ pop)); [discriminate|apply progress_save; exact P1|exact CV1|exact B1|].
  intros d [<-|C]; [apply RM; exact (nth_error_In _ _ NC)|apply (setup_random s0 s1 _ SS); exact (RZ d C)].
Qed.
Lemma initial_inv : forall n pos x, initial ints s0 n pos = Ret x -> length (fst x) = n /\ forall c, In c (fst x) -> random_member s0 c.
Proof.
  induction n as [|n IH]; intros pos x; cbn [initial]; [intros E; injection E as <-; split; [reflexivity|intros c []]|].
  destruct (random_config ints s0 pos) as [g| | |] eqn:G; cbn [obind]; try discriminate. destruct (initial ints s0 n (snd g)) as [y| | |] eqn:Y; cbn [obind]; try discriminate. intros E. injection E as <-. cbn [fst length]. destruct (IH _ _ Y) as [L A]. split; [lia|]. intros c [<-|C]; [exact (random_valid _ _ _ _ G)|exact (A c C)].
Qed.
Lemma initial_defined : s_widths s0 <> [] -> s_drops s0 <> [] -> s_levels s0 <> [] -> forall n pos, exists x, initial ints s0 n pos = Ret x.
Proof. intros W D L. induction n as [|n IH]; intros pos; cbn [initial]; [eauto|]. destruct (random_defined ints s0 pos W D L) as [g ->]. cbn [obind]. destruct (IH (snd g)) as [y ->]. cbn [obind]. eauto. Qed.
Lemma start_inv : best_inv KN best0 []. Proof. left. split; reflexivity. Qed.
Lemma start_covers : covers [] []. Proof. split; intros c []. Qed.
Lemma evo_inv size gens rate pos a s' : (1 <= size)%nat -> (1 <= gens)%nat -> evolutionarySearch flog fexp fpow2 noise ints reals s0 size gens rate mc pos = Ret (a, s') ->
  exists new pops, P s' new /\ covers new (concat pops) /\ length pops = gens /\ (forall p, In p pops -> length p = size /\ forall c, In c p -> random_member s0 c) /\ elitist KN pops /\
  (exists r, first_winner KN (concat pops) (sr_cfg a) r /\ reports a r) /\ sr_iter a = (N.of_nat gens * N.of_nat size) mod two64 /\ s_file s' = exported s'.
Proof.
  intros S1 G1 H. unfold evolutionarySearch in H. destruct (initial ints s0 size pos) as [p| | |] eqn:I; cbn [obind] in H; try discriminate H. destruct (initial_inv _ _ _ I) as [LP RP].
  destruct (evolve _ _ _ _ _ _ gens s0 best0 mc rate (fst p) (snd p)) as [[[s1 b1] pop1]| | |] eqn:EV; cbn [obind] in H; try discriminate H.
  assert (NP : fst p <> []) by (intros E; rewrite E in LP; cbn in LP; lia).
  destruct (evolve_inv rate gens s0 best0 [] [] (fst p) (snd p) _ NP (progress_start s0 mc K0) start_covers start_inv RP EV) as (new & pops & P1 & CV & B & L & A & E & F). cbn [app] in *.
  destruct (finish b1 _) as [a'| | |] eqn:FI; cbn [obind] in H; try discriminate H. injection H as <- <-. destruct (finish_inv _ _ _ _ _ B FI) as (r & W & RPT & IT).
  exists new, pops. split; [exact P1|]. split; [exact CV|]. split; [exact L|]. split; [intros q Q; destruct (A q Q) as [A1 A2]; split; [congruence|exact A2]|]. split; [exact E|]. split; [exists r; auto|]. split; [exact IT|]. apply F. lia.
Qed.
Lemma evo_defined size gens rate pos : s_widths s0 <> [] -> s_drops s0 <> [] -> s_levels s0 <> [] -> (forall c, random_member s0 c -> testable c) -> (1 <= size)%nat -> (1 <= gens)%nat -> completes (evolutionarySearch flog fexp fpow2 noise ints reals s0 size gens rate mc pos).
Proof.
  intros W D L TS S1 G1. unfold evolutionarySearch. destruct (initial_defined W D L size pos) as [p I]. rewrite I. cbn [obind]. destruct (initial_inv _ _ _ I) as [LP RP].
  assert (NP : fst p <> []) by (intros E; rewrite E in LP; cbn in LP; lia).
  destruct (evolve_defined rate W D L TS gens s0 best0 [] [] (fst p) (snd p) NP (progress_start s0 mc K0) start_covers start_inv RP) as [[[s1 b1] pop1] EV]. rewrite EV. cbn [obind].
  destruct (evolve_inv rate gens s0 best0 [] [] (fst p) (snd p) _ NP (progress_start s0 mc K0) start_covers start_inv RP EV) as (new & pops & P1 & CV & B & LL & A & E & F). cbn [app] in *.
  assert (NC : concat pops <> []). { destruct pops as [|q pops]; [cbn in LL; lia|]. destruct (A q (or_introl eq_refl)) as [A1 _]. destruct q; [cbn in A1; lia|discriminate]. }
  destruct (finish_defined _ _ _ ((N.of_nat gens * N.of_nat size) mod two64) B NC) as [a ->]. cbn [obind]. eexists. reflexivity.
Qed.
End Evo.
End Lib.
