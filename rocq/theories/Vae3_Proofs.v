(** The autoencoder: histories, radiation, statistics. *)
From Coq Require Import List NArith ZArith Bool Arith Lia SpecFloat.
Import ListNotations.
From Verif Require Import Outcome Words Arith Floats Bits_Model MBP_Model PNN_Model PNN_Spec PNN_Proofs PNN2_Proofs PNN3_Proofs PNN4_Proofs PNN5_Proofs Residual_Model Vae_Model Vae_Spec Vae_Proofs Vae2_Proofs.
Local Open Scope nat_scope.
Local Open Scope outcome_scope.

Section V.
Variables (expf logf tanhf : sf -> sf) (gauss : N -> nat -> N) (pgauss : N -> nat -> N -> N -> N).
Local Notation VI := (VInv expf tanhf).
Local Notation Step := (vstep expf logf gauss pgauss).
Definition fixed (v w : vae) : Prop := (self w, input_dim w, latent_dim w, hidden w, vlevel w) = (self v, input_dim v, latent_dim v, hidden v, vlevel v).
Lemma fixed_refl v : fixed v v. Proof. reflexivity. Qed.
Lemma fixed_mild v w : mild v w -> fixed v w. Proof. intros [_ _ _ _ E]. injection E as E1 E2 E3 E4 E5 E6. unfold fixed. congruence. Qed.
Lemma fixed_quiet v w : quiet v w -> fixed v w. Proof. intros [_ _ _ E]. injection E as E1 E2 E3 E4 E5 E6 E7. unfold fixed. congruence. Qed.
Lemma weights_mild v w : mild v w -> weights_of w = weights_of v.
Proof.
  intros [C1 C2 C3 _ _]. unfold weights_of. destruct (counted'_params _ _ C1) as [-> _], (counted'_params _ _ C2) as [-> _], (counted'_params _ _ C3) as [-> _]. reflexivity.
Qed.
Lemma net_radiation s ls lv h o rad w b s' : net s ls lv h o -> applyRadiationEffects s rad w b = Ret s' -> net s' ls lv h o.
Proof.
  intros [H1 H2 H3 H4] E. destruct (radiation_confined _ _ _ _ _ H1 E) as ((A1 & A2 & _ & A4 & _ & _) & _). constructor; try congruence. exact (Inv_radiation _ _ _ _ _ H1 E).
Qed.
Lemma radiation_VI v rad w1 w2 w3 b1 b2 b3 w : VI v -> vapplyRadiationEffects v rad w1 w2 w3 b1 b2 b3 = Ret w ->
  VI w /\ fixed v w /\ vcf w = vcf v /\ own w = own v /\ vmetrics w = vmetrics v /\
  applyRadiationEffects (enc v) rad w1 b1 = Ret (enc w) /\ applyRadiationEffects (dec v) rad w2 b2 = Ret (dec w) /\ applyRadiationEffects (itp v) rad w3 b3 = Ret (itp w).
Proof.
  intros HV H. unfold vapplyRadiationEffects in H. ob H e E1. ob H d E2. ob H i E3. injection H as <-. destruct HV as [V1 V2 V3 V4 V5].
  split; [|split; [reflexivity|]]; [|repeat (split; [reflexivity|]); split; [exact E1|split; [exact E2|exact E3]]].
  constructor; try assumption; eapply net_radiation; eassumption.
Qed.
Lemma reset_VI v : VI v -> VI (vresetErrorStats v).
Proof.
  intros [[A1 A2 A3 A4] [B1 B2 B3 B4] [C1 C2 C3 C4] V4 V5].
  constructor; try reflexivity; try assumption; constructor; try assumption; apply Inv_stats; try assumption; reflexivity.
Qed.
Lemma config_VI v c : VI v -> VI (setConfig v c).
Proof. intros [V1 V2 V3 V4 V5]. constructor; try assumption. reflexivity. Qed.
(* every call but setConfig, radiation and the reset *)
Lemma step_mild v o w : VI v -> Step v o = Ret w -> (forall c, o <> VConfig c) -> o <> VReset -> (forall rad w1 w2 w3 b1 b2 b3, o <> VRadiation rad w1 w2 w3 b1 b2 b3) -> mild v w.
Proof.
  intros HV H N1 N2 N3. destruct o as [x rad de dd r n|x rad d|z rad d|z1 z2 alpha rad di dd|k rad seed r dd|fuel data e b idx q|fuel td vd idx rt rv|data r|data r|c|rad w1 w2 w3 b1 b2 b3|];
    try (exfalso; eapply N1; reflexivity); try (exfalso; apply N2; reflexivity); try (exfalso; eapply N3; reflexivity); unfold vstep in H.
  - destruct (Nat.eq_dec (length x) (input_dim v)) as [Hx|Hx]; [|rewrite (forward_wrong expf logf tanhf gauss pgauss _ _ rad de dd r n HV Hx) in H; injection H as <-; eapply mild_refl; eassumption].
    destruct (forward_ok expf logf tanhf gauss pgauss v x rad de dd r n HV Hx) as (y & w' & E & _ & M & _). rewrite E in H. injection H as <-. exact M.
  - destruct (encode logf v x rad d) as [[[m l] w']| | |] eqn:E; try discriminate; injection H as <-; [|eapply mild_refl; eassumption]. cbn [snd].
    destruct (encode_mild _ _ _ _ _ _ _ _ _ _ HV E) as (M & _). exact M.
  - destruct (decode expf v z rad d) as [[y w']| | |] eqn:E; try discriminate; injection H as <-; [|eapply mild_refl; eassumption]. cbn [snd].
    destruct (decode_mild _ _ _ _ _ _ _ _ HV E) as (M & _). exact M.
  - destruct (interpolate expf v z1 z2 alpha rad di dd) as [[y w']| | |] eqn:E; try discriminate; injection H as <-; [|eapply mild_refl; eassumption]. cbn [snd].
    destruct (interpolate_mild _ _ _ _ _ _ _ _ _ _ _ HV E) as (M & _). exact M.
  - unfold generate in H. destruct (generate_from_ok expf tanhf gauss k v 0 (engine_seed seed r) rad dd HV) as (ys & w' & E & _ & _ & M & _). rewrite E in H. injection H as <-. exact M.
  - destruct (vtrain expf logf gauss pgauss fuel v data e b idx q) as [[y w']| | |] eqn:E; try discriminate; injection H as <-; [|eapply mild_refl; eassumption]. cbn [snd].
    destruct (vtrain_quiet _ _ _ _ _ _ _ _ _ _ _ _ _ _ HV E) as [Q _]. eapply quiet_mild; eassumption.
  - destruct (trainProduction expf logf gauss pgauss fuel v td vd idx rt rv) as [[y w']| | |] eqn:E; try discriminate; injection H as <-; [|eapply mild_refl; eassumption]. cbn [snd].
    destruct (production_quiet _ _ _ _ _ _ _ _ _ _ _ _ _ _ HV E) as [Q _]. eapply quiet_mild; eassumption.
  - destruct (vevaluate expf logf gauss pgauss v data r) as [[y w']| | |] eqn:E; try discriminate; injection H as <-; [|eapply mild_refl; eassumption]. cbn [snd].
    destruct (evaluate_quiet _ _ _ _ _ _ _ _ _ _ HV E) as [Q _]. eapply quiet_mild; eassumption.
  - destruct (evaluateComprehensive expf logf gauss pgauss v data r) as [[y w']| | |] eqn:E; try discriminate; injection H as <-; [|eapply mild_refl; eassumption]. cbn [snd].
    destruct (comprehensive_quiet _ _ _ _ _ _ _ _ _ _ HV E) as [Q _]. eapply quiet_mild; eassumption.
Qed.
Lemma step_VI v o w : VI v -> Step v o = Ret w -> VI w /\ fixed v w.
Proof.
  intros HV H.
  assert (D : (exists c, o = VConfig c) \/ o = VReset \/ (exists rad w1 w2 w3 b1 b2 b3, o = VRadiation rad w1 w2 w3 b1 b2 b3) \/
    ((forall c, o <> VConfig c) /\ o <> VReset /\ (forall rad w1 w2 w3 b1 b2 b3, o <> VRadiation rad w1 w2 w3 b1 b2 b3))).
  { destruct o; eauto 12; right; right; right; repeat split; intros; discriminate. }
  destruct D as [[c ->]|[->|[(rad & w1 & w2 & w3 & b1 & b2 & b3 & ->)|(N1 & N2 & N3)]]].
  - injection H as <-. split; [apply config_VI, HV|reflexivity].
  - injection H as <-. split; [apply reset_VI, HV|reflexivity].
  - cbn [vstep] in H. destruct (vapplyRadiationEffects v rad w1 w2 w3 b1 b2 b3) as [w'| | |] eqn:E; try discriminate; injection H as <-; [|split; [exact HV|reflexivity]].
    destruct (radiation_VI _ _ _ _ _ _ _ _ _ HV E) as (A & B & _). split; assumption.
  - pose proof (step_mild _ _ _ HV H N1 N2 N3) as M. split; [eapply VInv_mild; eassumption|apply fixed_mild, M].
Qed.
Lemma run_VI ops : forall v w, VI v -> vrun expf logf gauss pgauss v ops = Ret w -> VI w /\ fixed v w.
Proof.
  induction ops as [|o ops IH]; intros v w HV H; cbn [vrun] in H; [injection H as <-; split; [exact HV|reflexivity]|].
  ob H u E. destruct (step_VI _ _ _ HV E) as [HU F1]. destruct (IH _ _ HU H) as [HW F2]. split; [exact HW|]. unfold fixed in *. congruence.
Qed.
Lemma reachable_VI v : vreachable expf logf tanhf gauss pgauss v -> VI v.
Proof.
  intros (addr & inp & lat & hid & lv & c & i1 & i2 & i3 & v0 & ops & E0 & E). destruct (VInv_new _ _ _ _ _ _ _ _ _ _ _ _ E0) as (HV & _).
  apply (run_VI _ _ _ HV E).
Qed.
(** weights survive everything but radiation *)
Definition is_radiation (o : vop) : Prop := match o with VRadiation _ _ _ _ _ _ _ => True | _ => False end.
Lemma step_weights v o w : VI v -> Step v o = Ret w -> ~ is_radiation o -> weights_of w = weights_of v.
Proof.
  intros HV H NR. destruct o as [x rad de dd r n|x rad d|z rad d|z1 z2 alpha rad di dd|k rad seed r dd|fuel data e b idx q|fuel td vd idx rt rv|data r|data r|c|rad w1 w2 w3 b1 b2 b3|];
   try (apply weights_mild; eapply step_mild; [exact HV|exact H| | |]; intros; discriminate).
  - injection H as <-. reflexivity.
  - exfalso; apply NR; exact I.
  - injection H as <-. reflexivity.
Qed.
Lemma run_weights ops : forall v w, VI v -> vrun expf logf gauss pgauss v ops = Ret w -> Forall (fun o => ~ is_radiation o) ops -> weights_of w = weights_of v.
Proof.
  induction ops as [|o ops IH]; intros v w HV H NR; cbn [vrun] in H; [injection H as <-; reflexivity|].
  inversion NR as [|a l N1 N2]; subst. ob H u E. rewrite (IH _ _ (proj1 (step_VI _ _ _ HV E)) H N2). eapply step_weights; eassumption.
Qed.

(** ** statistics *)
Lemma stats_le v : VI v -> (snd (vgetErrorStats v) <= fst (vgetErrorStats v))%N.
Proof.
  intros [V1 V2 V3 V4 V5]. unfold vgetErrorStats, getErrorStats. cbn [fst snd].
  pose proof (inv_st _ (n_inv _ _ _ _ _ V1)) as S1. pose proof (inv_st _ (n_inv _ _ _ _ _ V2)) as S2. pose proof (inv_st _ (n_inv _ _ _ _ _ V3)) as S3.
  rewrite S1, S2, S3, V4. lia.
Qed.
Lemma stats_quiet v w : quiet v w -> vgetErrorStats w = vgetErrorStats v.
Proof. intros [[c1 E1] [c2 E2] [c3 E3] E]. injection E as _ _ _ _ _ _ E7. unfold vgetErrorStats, getErrorStats. rewrite E1, E2, E3, E7. reflexivity. Qed.
Lemma stats_radiation v rad w1 w2 w3 b1 b2 b3 w : VI v -> vapplyRadiationEffects v rad w1 w2 w3 b1 b2 b3 = Ret w -> vgetErrorStats w = vgetErrorStats v.
Proof.
  intros HV H. destruct (radiation_VI _ _ _ _ _ _ _ _ _ HV H) as (_ & _ & _ & O & _ & A1 & A2 & A3). destruct HV as [[I1 _ _ _] [I2 _ _ _] [I3 _ _ _] _ _].
  destruct (radiation_confined _ _ _ _ _ I1 A1) as ((_ & _ & _ & _ & _ & S1) & _). destruct (radiation_confined _ _ _ _ _ I2 A2) as ((_ & _ & _ & _ & _ & S2) & _).
  destruct (radiation_confined _ _ _ _ _ I3 A3) as ((_ & _ & _ & _ & _ & S3) & _). unfold vgetErrorStats, getErrorStats. rewrite S1, S2, S3, O. reflexivity.
Qed.
End V.
