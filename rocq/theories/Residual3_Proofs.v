(** Proofs for Residual: what networks can hold. *)
From Coq Require Import List NArith ZArith Bool Arith Lia Permutation SpecFloat.
Import ListNotations.
From Verif Require Import Outcome Words Floats MBP_Model PNN_Model PNN_Spec PNN_Proofs PNN2_Proofs PNN3_Proofs PNN6_Proofs Residual_Model Residual_Spec Residual_Proofs Residual2_Proofs.
Local Open Scope N_scope.

Lemma connected_valid n ops f t : connected n ops f t = true -> f < t /\ t < n.
Proof.
  unfold connected. induction ops as [|o ops IH] using rev_ind; [discriminate|]. rewrite fold_left_app. cbn [fold_left]. destruct o; try exact IH.
  - destruct (N.eqb_spec from f); cbn [andb]; [|exact IH]. destruct (N.eqb_spec to t); cbn [andb]; [|exact IH]. destruct (N.ltb_spec f t); cbn [andb]; [|exact IH]. destruct (N.ltb_spec t n); [|exact IH]. auto.
  - destruct ((from =? f) && (to =? t)); [discriminate|exact IH].
Qed.
Lemma dec_length fuel : forall n acc, (length (dec_ fuel n acc) <= fuel + length acc)%nat.
Proof. induction fuel as [|fuel IH]; intros n acc; cbn [dec_]; [lia|]. destruct (_ =? 0); [cbn [length]; lia|]. specialize (IH (n / 10) ((48 + n mod 10) :: acc)). cbn [length] in IH. lia. Qed.
Lemma string_length n : n < 2 ^ 64 -> (length (to_string n) <= 65)%nat.
Proof.
  intros H. unfold to_string. pose proof (dec_length (S (N.to_nat (N.size n))) n []) as L. cbn [length] in L.
  assert (N.size n <= 64). { destruct n as [|p]; [cbn; lia|]. rewrite N.size_log2 by discriminate. assert (N.log2 (N.pos p) < 64) by (apply N.log2_lt_pow2; [lia|exact H]). lia. }
  lia.
Qed.
Lemma key_chars f t : size_t f -> size_t t -> Forall (fun c => c < 256) (makeConnectionKey f t) /\ (length (makeConnectionKey f t) <= 132)%nat.
Proof.
  intros Hf Ht. unfold makeConnectionKey. destruct (to_string_spec f) as (a & Ea & _ & Fa & _). destruct (to_string_spec t) as (b & Eb & _ & Fb & _).
  pose proof (string_length f Hf). pose proof (string_length t Ht). split.
  - rewrite Ea, Eb. apply Forall_app. split; [eapply Forall_impl; [|exact Fa]; cbn beta; intros c Hc; lia|]. apply Forall_app. split; [repeat constructor|]. eapply Forall_impl; [|exact Fb]. cbn beta; intros c Hc; lia.
  - rewrite !app_length. cbn [length]. lia.
Qed.
Definition bare (l : list (str * conn)) : Prop := Forall (fun p => cweights (snd p) = [] /\ protected (snd p) = false) l.
Lemma bare_put k c l : cweights c = [] -> protected c = false -> bare l -> bare (put k c l).
Proof. intros H1 H2. induction 1 as [|[k0 c0] l H0 HL IH]; cbn [put]; [repeat constructor; assumption|]. destruct (str_eqb k k0); constructor; try assumption. split; assumption. Qed.
Lemma bare_erase k l : bare l -> bare (erase k l).
Proof. induction 1 as [|[k0 c0] l H0 HL IH]; cbn [erase]; [constructor|]. destruct (str_eqb k k0); [exact HL|constructor; assumption]. Qed.
Lemma bare_lookup k l c : bare l -> lookup k l = Some c -> cweights c = [] /\ protected c = false.
Proof. induction 1 as [|[k0 c0] l H0 HL IH]; cbn [lookup]; [discriminate|]. destruct (str_eqb k k0); [intros E; injection E as <-; exact H0|exact IH]. Qed.
Lemma rstep_bare s o s' : Inv (base s) -> bare (conns s) -> rstep s o = Ret s' -> Inv (base s') /\ bare (conns s').
Proof.
  intros HI HB H. destruct o as [o|f t|f t|f t p|z a d|x rad d|x y e]; cbn [rstep] in H.
  - apply obind_ret in H. destruct H as (b & H1 & H). injection H as <-. split; [exact (Inv_step _ _ _ HI H1)|exact HB].
  - injection H as <-. unfold addSkipConnection. cbn zeta. destruct (_ || _); [auto|]. destruct (_ <=? _); [auto|]. split; [exact HI|]. apply bare_put; auto.
  - injection H as <-. unfold removeSkipConnection. destruct (lookup _ _); [|auto]. split; [exact HI|]. apply bare_erase, HB.
  - injection H as <-. unfold setSkipProjection. destruct (lookup _ _) eqn:E; [|auto]. destruct (bare_lookup _ _ _ HB E). split; [exact HI|]. apply bare_put; auto.
  - injection H as <-. auto.
  - destruct (rforward s x rad d) as [[y s1]|u|u|] eqn:E; try discriminate; injection H as <-; [|auto]. destruct (rforward_still _ _ _ _ _ _ HI E) as (A & B & _). cbn [snd]. rewrite B. auto.
  - unfold rtrain in H. destruct (rtrain_ s x y (Z.to_nat e) 0) as [r|u|u|] eqn:E; try discriminate; injection H as <-; [|auto]. destruct (rtrain_still _ _ _ _ _ _ HI E) as (A & B & _). rewrite B. auto.
Qed.
Lemma rrun_bare ops : forall s s', Inv (base s) -> bare (conns s) -> rrun s ops = Ret s' -> Inv (base s') /\ bare (conns s').
Proof.
  induction ops as [|o ops IH]; intros s s' HI HB H; cbn [rrun] in H; [injection H as <-; auto|]. apply obind_ret in H. destruct H as (s1 & H1 & H). destruct (rstep_bare _ _ _ HI HB H1). eapply IH; eauto.
Qed.
Lemma rreachable_inv s : rreachable s -> Inv (base s) /\ bare (conns s).
Proof. intros (ls & lv & init & s0 & ops & H & HR). destruct (rnn_new_inv _ _ _ _ H) as (I & E & C). eapply rrun_bare; [exact I| |exact HR]. rewrite C. constructor. Qed.
Lemma bare_plain l : bare l -> map plain_conn l = map (fun p => (fst p, new_conn)) l.
Proof. intros H. apply map_ext_in. intros [k c] Hin. unfold bare in H. rewrite Forall_forall in H. destruct (H _ Hin) as [A B]. cbn [snd] in *. unfold plain_conn, new_conn. cbn [fst snd]. rewrite A, B. reflexivity. Qed.
Lemma Permutation_storable l it : Permutation l it -> storable l -> storable it.
Proof.
  intros P (A & B & C). split; [eapply Permutation_NoDup; [apply Permutation_map, P|exact A]|]. split; [rewrite <- (Permutation_length P); exact B|]. eapply Permutation_Forall; eassumption.
Qed.
Lemma history_storable ls lv init s0 ops s : rnn_new ls lv init = Ret s0 -> N.of_nat (length ls) < 2 ^ 64 -> Forall size_args ops -> rrun s0 ops = Ret s -> size_t (N.of_nat (length (conns s))) -> storable (conns s).
Proof.
  intros H HL HA HR HC. destruct (history _ _ _ _ _ _ H HL HA HR) as (_ & _ & (K1 & K2 & _)).
  destruct (rreachable_inv s) as [_ HB]; [exists ls, lv, init, s0, ops; auto|]. split; [exact K1|]. split; [exact HC|]. unfold bare in HB. rewrite Forall_forall in *. intros p Hp.
  destruct (K2 (fst p) (in_map fst _ _ Hp)) as (f & t & E & L1 & L2). destruct (sizet_lt _ f t (N.lt_le_incl _ _ HL) L1 L2) as [Sf St]. destruct (key_chars f t Sf St) as [Q1 Q2]. destruct (HB p Hp) as [W _]. destruct p as [k c]; cbn [fst snd] in *; subst k; rewrite ?W.
  split; [exact Q1|]. split; [unfold size_t; lia|]. split; [constructor|]. cbn [length]. lia.
Qed.
