(** The autoencoder: decode, sample, forward, interpolate, generate, the losses and training. *)
From Coq Require Import List NArith ZArith Bool Arith Lia SpecFloat.
Import ListNotations.
From Verif Require Import Outcome Words Arith Floats Bits_Model MBP_Model PNN_Model PNN_Spec PNN_Proofs PNN2_Proofs PNN3_Proofs PNN4_Proofs PNN5_Proofs Residual_Model Vae_Model Vae_Spec Vae_Proofs.
Local Open Scope nat_scope.
Local Open Scope outcome_scope.
Ltac ob H x E := apply obind_ret in H; destruct H as (x & E & H).

Section V.
Variables (expf logf tanhf : sf -> sf) (gauss : N -> nat -> N) (pgauss : N -> nat -> N -> N -> N).
Local Notation VI := (VInv expf tanhf).
Local Notation Encode := (encode logf).
Local Notation Decode := (decode expf).
Local Notation Sample := (sample expf gauss pgauss).
Local Notation zero := (S754_zero false).

(** ** decode *)
Lemma decode_ok v z rad d : VI v -> length z = latent_dim v ->
  exists y s', forward (dec v) z rad d = Ret (y, s') /\ length y = input_dim v /\ counted' (dec v) s' /\
    Decode v z rad d = Ret (applyInverseLogarithmics expf y, with_dec v s').
Proof.
  intros HV Hz. destruct (net_forward _ _ _ _ _ z rad d (v_dec _ _ v HV) Hz) as (y & s' & E & C & L). rewrite last_dec in L.
  exists y, s'. split; [exact E|]. split; [exact L|]. split; [exact C|]. unfold decode. rewrite E. reflexivity.
Qed.
Lemma decode_quiet v z rad d : VI v -> calm v rad -> length z = latent_dim v ->
  exists s', counted (dec v) s' /\ length (decoded expf v z) = input_dim v /\ Decode v z rad d = Ret (decoded expf v z, with_dec v s').
Proof.
  intros HV HC Hz. destruct (net_forward_quiet _ _ _ _ _ z rad d (v_dec _ _ v HV) HC Hz) as (s' & E & C & L). rewrite last_dec in L.
  exists s'. split; [exact C|]. split; [unfold decoded; rewrite inv_logs_length; exact L|]. unfold decode. rewrite E. reflexivity.
Qed.
Lemma decode_wrong v z rad d : VI v -> length z <> latent_dim v -> Decode v z rad d = Throw E_invalid_argument.
Proof. intros HV Hz. unfold decode. rewrite (net_forward_wrong _ _ _ _ _ _ rad d (v_dec _ _ v HV)) by exact Hz. reflexivity. Qed.
Lemma decode_mild v z rad d y w : VI v -> Decode v z rad d = Ret (y, w) ->
  mild v w /\ length y = input_dim v /\ length z = latent_dim v /\ enc w = enc v /\ itp w = itp v /\ own w = own v /\ vmetrics w = vmetrics v /\
  (calm v rad -> quiet v w /\ y = decoded expf v z).
Proof.
  intros HV H. destruct (Nat.eq_dec (length z) (latent_dim v)) as [Hz|Hz]; [|rewrite (decode_wrong _ _ _ _ HV Hz) in H; discriminate].
  destruct (decode_ok v z rad d HV Hz) as (y' & s' & E & L & C & H'). rewrite H in H'. injection H' as -> ->.
  split; [eapply mild_dec; eassumption|]. split; [rewrite inv_logs_length; exact L|]. split; [exact Hz|]. do 4 (split; [reflexivity|]). intros HC.
  destruct (decode_quiet v z rad d HV HC Hz) as (s1 & C1 & _ & H1). rewrite H in H1. injection H1 as E1 E2. subst s1. split; [apply quiet_dec, C1|exact E1].
Qed.

(** ** sample *)
Lemma sample_ok v m l seed r : latent_dim v <= length m -> latent_dim v <= length l ->
  Sample v m l seed r = Ret (map (drawn expf gauss pgauss (c_sampling (vcf v)) (engine_seed seed r) m l) (seq 0 (latent_dim v))).
Proof.
  intros Hm Hl. unfold sample. apply omap_ok. intros i Hi. apply in_seq in Hi. rewrite (at_ok m i 0%N) by lia. cbn [obind].
  rewrite (at_ok l i 0%N) by lia. reflexivity.
Qed.
Lemma sample_ub v m l seed r : length m < latent_dim v \/ length l < latent_dim v -> Sample v m l seed r = UB UB_array_index.
Proof.
  intros H. unfold sample. apply omap_ub.
  - exists (Nat.min (length m) (length l)). split; [apply in_seq; lia|].
    destruct (Nat.le_gt_cases (length m) (length l)).
    + rewrite at_ub by lia. reflexivity.
    + rewrite (at_ok m _ 0%N) by lia. cbn [obind]. rewrite at_ub by lia. reflexivity.
  - intros i _. destruct (at_case m i) as [(a & -> & _)|[-> _]]; [|right; reflexivity]. cbn [obind].
    destruct (at_case l i) as [(b & -> & _)|[-> _]]; [left|right; reflexivity]. cbn [obind]. eauto.
Qed.
Lemma sample_ret v m l seed r z : Sample v m l seed r = Ret z ->
  length z = latent_dim v /\ latent_dim v <= length m /\ latent_dim v <= length l.
Proof.
  intros H. destruct (Nat.lt_ge_cases (length m) (latent_dim v)); [rewrite sample_ub in H by auto; discriminate|].
  destruct (Nat.lt_ge_cases (length l) (latent_dim v)); [rewrite sample_ub in H by auto; discriminate|].
  split; [|auto]. rewrite sample_ok in H by assumption. injection H as <-. rewrite map_length, seq_length. reflexivity.
Qed.
Lemma sample_quiet v w m l seed r : quiet v w -> Sample w m l seed r = Sample v m l seed r.
Proof. intros [_ _ _ E]. injection E as _ _ E3 _ _ E6 _. unfold sample. rewrite E3, E6. reflexivity. Qed.
Lemma sample_mild v w m l seed r : mild v w -> Sample w m l seed r = Sample v m l seed r.
Proof. intros [_ _ _ _ E]. injection E as _ _ E3 _ _ E6. unfold sample. rewrite E3, E6. reflexivity. Qed.

(** ** latent protection *)
Lemma protect_all_length z rad n : forall i t, length (fst (protect_all z rad n i t)) = length z.
Proof.
  induction z as [|a z IH]; intros i t; [reflexivity|]. cbn [protect_all]. destruct (n i) as [[n1 n2] n3]. destruct (protect_one a rad n1 n2 n3) as [r b].
  set (t' := if b then _ else t). specialize (IH (S i) t'). destruct (protect_all z rad n (S i) t') as [z' t'']. cbn [fst length] in *. congruence.
Qed.
Lemma protect_all_stats z rad n : forall i t, let u := snd (protect_all z rad n i t) in exists k, (k <= N.of_nat (length z))%N /\ u = mkStats (detected t + k) (corrected t + k) (uncorrectable t).
Proof.
  induction z as [|a z IH]; intros i t; cbn zeta.
  - exists 0%N. split; [apply N.le_refl|]. cbn [protect_all snd]. destruct t; cbn. rewrite !N.add_0_r. reflexivity.
  - cbn [protect_all]. destruct (n i) as [[n1 n2] n3]. destruct (protect_one a rad n1 n2 n3) as [r b].
    set (t' := if b then _ else t). specialize (IH (S i) t'). cbn zeta in IH. destruct (protect_all z rad n (S i) t') as [z' t'']. cbn [snd] in *.
    destruct IH as (k & Hk & ->). cbn [length]. destruct b; subst t'; cbn [detected corrected uncorrectable].
    + exists (1 + k)%N. split; [lia|]. rewrite !N.add_assoc. reflexivity.
    + exists k. split; [lia|reflexivity].
Qed.
Lemma protect_mild v z rad n z' w : VI v -> protectLatentVariables v z rad n = (z', w) ->
  mild v w /\ length z' = length z /\ enc w = enc v /\ dec w = dec v /\ itp w = itp v /\ vmetrics w = vmetrics v /\
  (fgt rad (dlit 1 10) = false -> z' = z /\ w = v).
Proof.
  intros HV H. unfold protectLatentVariables in H. destruct (fgt rad (dlit 1 10)) eqn:E.
  - pose proof (protect_all_length z rad n 0 (own v)) as L. pose proof (protect_all_stats z rad n 0 (own v)) as S1. cbn zeta in S1.
    destruct (protect_all z rad n 0 (own v)) as [z1 t]. cbn [fst snd] in L, S1. destruct S1 as (k & _ & ->). injection H as <- <-.
    destruct (mild_refl _ _ v HV) as [A1 A2 A3 A4 A5]. split; [|split; [exact L|]]; [constructor; auto|].
    + cbn [own with_own detected corrected]. intros Ed. rewrite Ed. reflexivity.
    + do 4 (split; [reflexivity|]). discriminate.
  - injection H as <- <-. split; [apply mild_refl with (1 := HV)|]. do 5 (split; [reflexivity|]). auto.
Qed.

(** ** forward *)
Lemma encode_mild' v x rad d m l w : VI v -> Encode v x rad d = Ret (m, l, w) -> calm v rad -> (m, l) = encoded logf v x.
Proof.
  intros HV H HC. destruct (Nat.eq_dec (length x) (input_dim v)) as [Hx|Hx]; [|rewrite (encode_wrong _ _ _ _ _ _ _ HV Hx) in H; discriminate].
  destruct (encode_quiet expf logf tanhf v x rad d HV HC Hx) as (s & _ & _ & E). rewrite H in E. injection E as -> -> _. reflexivity.
Qed.
Lemma calm_mild v w rad : mild v w -> calm v rad -> calm w rad.
Proof. intros [_ _ _ _ E] H. injection E as _ _ _ _ E5 _. unfold calm. rewrite E5. exact H. Qed.
Lemma decoded_quiet v w z : quiet v w -> decoded expf w z = decoded expf v z.
Proof. intros [_ C _ _]. destruct (counted_params _ _ C) as [P A]. unfold decoded. rewrite P, A. reflexivity. Qed.
Lemma encoded_quiet v w z : quiet v w -> encoded logf w z = encoded logf v z.
Proof. intros [C _ _ E]. destruct (counted_params _ _ C) as [P A]. injection E as _ _ E3 _ _ _ _. unfold encoded. rewrite P, A, E3. reflexivity. Qed.
Lemma input_mild v w : mild v w -> input_dim w = input_dim v /\ latent_dim w = latent_dim v /\ vcf w = vcf v.
Proof. intros [_ _ _ _ E]. injection E as _ E2 E3 _ _ E6. auto. Qed.
Lemma VI_mild v w : mild v w -> VI v -> VI w. Proof. intros M H. eapply VInv_mild; eassumption. Qed.
Lemma forward_ok v x rad de dd r n : VI v -> length x = input_dim v ->
  exists y w, vforward expf logf gauss pgauss v x rad de dd r n = Ret (y, w) /\ length y = input_dim v /\ mild v w /\ vmetrics w = vmetrics v.
Proof.
  intros HV Hx. destruct (encode_ok expf logf tanhf v x rad de HV Hx) as (y0 & s' & _ & L0 & _ & E0). unfold vforward. rewrite E0. cbn [obind].
  set (ml := split_ok v y0) in *. destruct (encode_mild _ _ _ v x rad de _ _ _ HV E0) as (M1 & L1 & L2 & _ & _ & _ & V1 & _).
  set (v1 := with_enc v s') in *. destruct (input_mild _ _ M1) as (D1 & D2 & D3). rewrite sample_ok by lia. cbn [obind].
  set (z := map _ _). destruct (protectLatentVariables v1 z rad n) as [z' v2] eqn:E2.
  destruct (protect_mild v1 z rad n z' v2 (VI_mild _ _ M1 HV) E2) as (M2 & L3 & _ & _ & _ & V2 & _).
  destruct (input_mild _ _ M2) as (D4 & D5 & D6).
  assert (HV2 : VI v2) by (eapply VI_mild; [exact M2|eapply VI_mild; [exact M1|exact HV]]).
  assert (Hz : length z' = latent_dim v2) by (rewrite L3; unfold z; rewrite map_length, seq_length; congruence).
  destruct (decode_ok v2 z' rad dd HV2 Hz) as (y & s2 & _ & _ & _ & E3). destruct (decode_mild v2 z' rad dd _ _ HV2 E3) as (M3 & L4 & _ & _ & _ & _ & V3 & _).
  eexists _, _. split; [exact E3|]. split; [congruence|]. split; [eapply mild_trans; [exact M1|eapply mild_trans; eassumption]|congruence].
Qed.
Lemma forward_wrong v x rad de dd r n : VI v -> length x <> input_dim v -> vforward expf logf gauss pgauss v x rad de dd r n = Throw E_invalid_argument.
Proof. intros HV Hx. unfold vforward. rewrite (encode_wrong expf logf tanhf v x rad de HV Hx). reflexivity. Qed.
Definition latent (v : vae) (x : list N) (r : N) : list N :=
  map (drawn expf gauss pgauss (c_sampling (vcf v)) (engine_seed 0 r) (fst (encoded logf v x)) (snd (encoded logf v x))) (seq 0 (latent_dim v)).
Lemma encoded_lengths v x : VI v -> length x = input_dim v -> length (fst (encoded logf v x)) = latent_dim v /\ length (snd (encoded logf v x)) = latent_dim v.
Proof.
  intros HV Hx. destruct (encode_quiet expf logf tanhf v x zero no_draws HV) as (s & _ & L & _); [right; vm_compute; reflexivity|exact Hx|].
  unfold encoded. cbn [fst snd]. rewrite firstn_length, map_length, skipn_length. lia.
Qed.
Lemma forward_still v x rad de dd r n : VI v -> still v rad -> length x = input_dim v ->
  exists w, vforward expf logf gauss pgauss v x rad de dd r n = Ret (decoded expf v (latent v x r), w) /\ quiet v w /\ vmetrics w = vmetrics v.
Proof.
  intros HV [HC HS] Hx. destruct (encode_quiet expf logf tanhf v x rad de HV HC Hx) as (s & C & L & E). unfold vforward. rewrite E. cbn [obind].
  change (fst (split_ok v _)) with (fst (encoded logf v x)). change (snd (split_ok v _)) with (snd (encoded logf v x)).
  destruct (encoded_lengths v x HV Hx) as [L1 L2]. pose proof (quiet_enc v s C) as Q1. rewrite (sample_quiet _ _ _ _ _ _ Q1). rewrite sample_ok by lia. cbn [obind].
  fold (latent v x r). unfold protectLatentVariables. rewrite HS.
  pose proof (quiet_mild _ _ _ _ HV Q1) as M1. assert (Hz : length (latent v x r) = latent_dim (with_enc v s)) by (unfold latent; rewrite map_length, seq_length; reflexivity).
  destruct (decode_quiet (with_enc v s) _ rad dd (VI_mild _ _ M1 HV) (calm_mild _ _ _ M1 HC) Hz) as (s2 & C2 & _ & E2).
  eexists. split; [rewrite E2, (decoded_quiet _ _ _ Q1); reflexivity|]. split; [eapply quiet_trans; [exact Q1|apply quiet_dec, C2]|reflexivity].
Qed.
Lemma calm0 v : calm v zero. Proof. right. vm_compute. reflexivity. Qed.
Lemma still0 v : still v zero. Proof. split; [apply calm0|vm_compute; reflexivity]. Qed.

(** ** interpolate *)
Lemma interpolate_mild v z1 z2 alpha rad di dd y w : VI v -> interpolate expf v z1 z2 alpha rad di dd = Ret (y, w) ->
  mild v w /\ length y = input_dim v /\ own w = own v /\ vmetrics w = vmetrics v /\ (calm v rad -> quiet v w).
Proof.
  intros HV H. unfold interpolate in H. destruct (c_interp (vcf v)).
  - ob H p E1. ob H z E2. destruct p as [q s]. cbn [fst snd] in *.
    assert (M : counted' (itp v) s /\ (calm v rad -> counted (itp v) s)).
    { destruct (Nat.eq_dec (length (z1 ++ z2)) (hd O (itp_sizes v))) as [L|L]; [|rewrite (net_forward_wrong _ _ _ _ _ _ rad di (v_itp _ _ v HV) L) in E1; discriminate].
      destruct (net_forward _ _ _ _ _ (z1 ++ z2) rad di (v_itp _ _ v HV) L) as (q' & s' & E & C & _). rewrite E1 in E; injection E as <- <-. split; [exact C|].
      intros HC. destruct (net_forward_quiet _ _ _ _ _ (z1 ++ z2) rad di (v_itp _ _ v HV) HC L) as (s'' & E & C' & _). rewrite E1 in E; injection E as _ ->. exact C'. }
    destruct M as [M1 M2]. pose proof (mild_itp _ _ v s HV M1) as MI. destruct (decode_mild _ _ _ _ _ _ (VI_mild _ _ MI HV) H) as (M3 & L & _ & _ & _ & O & V & Q).
    split; [eapply mild_trans; eassumption|]. split; [exact L|]. split; [exact O|]. split; [exact V|]. intros HC.
    eapply quiet_trans; [apply quiet_itp, M2, HC|apply Q]. eapply calm_mild; eassumption.
  - ob H z E2. destruct (decode_mild _ _ _ _ _ _ HV H) as (M3 & L & _ & _ & _ & O & V & Q). split; [exact M3|]. split; [exact L|]. split; [exact O|]. split; [exact V|]. intros HC. apply Q, HC.
Qed.

(** ** losses and passes *)
Lemma calculateLoss_quiet v x y m l q1 q0 q2 r w : VI v -> vcalculateLoss expf gauss pgauss v x y m l q1 q0 q2 = Ret (r, w) -> quiet v w /\ vmetrics w = vmetrics v.
Proof.
  intros HV H. unfold vcalculateLoss in H. ob H recon E1. ob H kl E2. destruct (c_interp (vcf v)).
  - ob H z1 E3. ob H z2 E4. ob H p E5. ob H il E6. destruct p as [o w']. injection H as <- <-. cbn [snd].
    destruct (interpolate_mild _ _ _ _ _ _ _ _ _ HV E5) as (_ & _ & _ & V & Q). split; [apply Q, calm0|exact V].
  - injection H as <- <-. split; [apply quiet_refl|reflexivity].
Qed.
Lemma VI_quiet v w : quiet v w -> VI v -> VI w. Proof. intros M H. eapply VInv_quiet; eassumption. Qed.
Lemma train_sample_quiet v x q r w : VI v -> train_sample expf logf gauss pgauss v x q = Ret (r, w) -> quiet v w /\ vmetrics w = vmetrics v.
Proof.
  intros HV H. unfold train_sample in H. ob H p E1. destruct p as [[m l] v1]. ob H z E2. ob H p E3. destruct p as [y v2]. cbn [fst snd] in H.
  destruct (encode_mild _ _ _ _ _ _ _ _ _ _ HV E1) as (_ & _ & _ & _ & _ & _ & V1 & Q1). specialize (Q1 (calm0 v)). pose proof (VI_quiet _ _ Q1 HV) as HV1.
  destruct (decode_mild _ _ _ _ _ _ HV1 E3) as (_ & _ & _ & _ & _ & _ & V2 & Q2). specialize (Q2 (calm0 v1)). destruct Q2 as [Q2 _].
  destruct (calculateLoss_quiet _ _ _ _ _ _ _ _ _ _ (VI_quiet _ _ Q2 HV1) H) as [Q3 V3]. split; [|congruence]. eapply quiet_trans; [exact Q1|eapply quiet_trans; eassumption].
Qed.
Lemma train_batch_quiet data idx q sv p r : VI (snd sv) -> train_batch expf logf gauss pgauss data idx q sv p = Ret r -> quiet (snd sv) (snd r) /\ vmetrics (snd r) = vmetrics (snd sv).
Proof.
  intros HV H. unfold train_batch in H. ob H b E. injection H as <-. cbn [snd].
  refine (_ (ofold_inv (fun a => VI (snd a)) (fun a b => quiet (snd a) (snd b) /\ vmetrics (snd b) = vmetrics (snd a)) _ _ _ _ (range p) (0%N, snd sv) b HV E)).
  - intros [Q _]. exact Q.
  - intros a. split; [apply quiet_refl|reflexivity].
  - intros a b' c [Q1 V1] [Q2 V2]. split; [eapply quiet_trans; eassumption|congruence].
  - intros a x a' Ha Ea. ob Ea k E1. ob Ea y E2. ob Ea t E3. injection Ea as <-. destruct t as [t w]. cbn [fst snd] in *.
    destruct (train_sample_quiet _ _ _ _ _ Ha E3) as [Q1 V1]. split; [split; assumption|eapply VI_quiet; eassumption].
Qed.
Lemma train_epochs_quiet fuel data bs idx q n : forall e v total r, VI v -> train_epochs expf logf gauss pgauss fuel v data bs idx q e n total = Ret r ->
  quiet v (snd r) /\ vmetrics (snd r) = vmetrics v.
Proof.
  induction n as [|n IH]; intros e v total r HV H; cbn [train_epochs] in H; [injection H as <-; split; [apply quiet_refl|reflexivity]|].
  ob H rs E1. ob H b E2. destruct (bs =? 0)%N; [discriminate|].
  refine (_ (ofold_inv (fun a => VI (snd a)) (fun a b => quiet (snd a) (snd b) /\ vmetrics (snd b) = vmetrics (snd a)) _ _ _ _ rs (0%N, v) b HV E2)).
  - intros [[Q V] HV']. cbn [snd] in *. destruct (IH _ _ _ _ HV' H) as [Q2 V2]. split; [eapply quiet_trans; eassumption|congruence].
  - intros a. split; [apply quiet_refl|reflexivity].
  - intros a b' c [Q1 V1] [Q2 V2]. split; [eapply quiet_trans; eassumption|congruence].
  - intros a x a' Ha Ea. destruct (train_batch_quiet _ _ _ _ _ _ Ha Ea) as [Q1 V1]. split; [split; assumption|eapply VI_quiet; eassumption].
Qed.
Lemma vtrain_quiet fuel v data e b idx q r w : VI v -> vtrain expf logf gauss pgauss fuel v data e b idx q = Ret (r, w) -> quiet v w /\ vmetrics w = vmetrics v.
Proof. intros HV H. unfold vtrain in H. exact (train_epochs_quiet _ _ _ _ _ _ _ _ _ (r, w) HV H). Qed.
Lemma evaluate_quiet v data r l w : VI v -> vevaluate expf logf gauss pgauss v data r = Ret (l, w) -> quiet v w /\ vmetrics w = vmetrics v.
Proof.
  intros HV H. unfold vevaluate in H. ob H b E. injection H as _ <-.
  refine (_ (ofold_inv (fun a => VI (snd a)) (fun a b => quiet (snd a) (snd b) /\ vmetrics (snd b) = vmetrics (snd a)) _ _ _ _ _ (0%N, v) b HV E)).
  - intros [Q _]. exact Q.
  - intros a. split; [apply quiet_refl|reflexivity].
  - intros a b' c [Q1 V1] [Q2 V2]. split; [eapply quiet_trans; eassumption|congruence].
  - intros a x a' Ha Ea. ob Ea y E1. ob Ea z E2. injection Ea as <-. cbn [snd].
    destruct (Nat.eq_dec (length (snd x)) (input_dim (snd a))) as [Hx|Hx]; [|rewrite (forward_wrong _ _ _ _ _ _ _ Ha Hx) in E1; discriminate].
    destruct (forward_still (snd a) (snd x) zero no_draws no_draws (r (fst x)) no_noise Ha (still0 _) Hx) as (w' & E' & Q1 & V1). rewrite E1 in E'; injection E' as ->.
    cbn [snd]. split; [split; assumption|eapply VI_quiet; eassumption].
Qed.
Lemma pass_quiet v x r o w : VI v -> pass expf logf gauss pgauss v x r = Ret (o, w) -> quiet v w /\ vmetrics w = vmetrics v.
Proof.
  intros HV H. unfold pass in H. ob H p E1. destruct p as [[m l] v1]. ob H z E2. ob H p E3. destruct p as [y v2]. ob H rc E4. ob H kl E5. injection H as _ <-. cbn [fst snd] in *.
  destruct (encode_mild _ _ _ _ _ _ _ _ _ _ HV E1) as (_ & _ & _ & _ & _ & _ & V1 & Q1). specialize (Q1 (calm0 v)). pose proof (VI_quiet _ _ Q1 HV) as HV1.
  destruct (decode_mild _ _ _ _ _ _ HV1 E3) as (_ & _ & _ & _ & _ & _ & V2 & Q2). specialize (Q2 (calm0 v1)). destruct Q2 as [Q2 _].
  split; [|congruence]. eapply quiet_trans; eassumption.
Qed.
Definition loud (v w : vae) : Prop := quiet v w /\ vmetrics w = vmetrics v.
Lemma loud_refl v : loud v v. Proof. split; [apply quiet_refl|reflexivity]. Qed.
Lemma loud_trans a b c : loud a b -> loud b c -> loud a c.
Proof. intros [Q1 V1] [Q2 V2]. split; [eapply quiet_trans; eassumption|congruence]. Qed.
Lemma comprehensive_quiet v data r o w : VI v -> evaluateComprehensive expf logf gauss pgauss v data r = Ret (o, w) -> quiet v w /\ vmetrics w = vmetrics v.
Proof.
  intros HV H. unfold evaluateComprehensive in H. ob H b E. destruct b as [[[tl tk] tr] v']. injection H as _ <-.
  refine (_ (ofold_inv (fun a => VI (snd a)) (fun a b => loud (snd a) (snd b)) _ _ _ _ _ (0%N, 0%N, 0%N, v) (tl, tk, tr, v') HV E)).
  - intros [Q _]. exact Q.
  - intros a. apply loud_refl.
  - intros a b' c. apply loud_trans.
  - intros [[[a1 a2] a3] va] x a' Ha Ea. ob Ea y E1. destruct y as [[[[[[y1 y2] y3] y4] y5] y6] w']. injection Ea as <-. cbn [snd] in *.
    destruct (pass_quiet _ _ _ _ _ Ha E1) as [Q V]. split; [split; assumption|eapply VI_quiet; eassumption].
Qed.
Lemma prod_sample_quiet r a p b : VI (snd a) -> prod_sample expf logf gauss pgauss r a p = Ret b -> loud (snd a) (snd b).
Proof.
  destruct a as [[[a1 a2] a3] va]. intros Ha H. unfold prod_sample in H. ob H y E1. destruct y as [[[[[[y1 y2] y3] y4] y5] y6] w']. ob H g1 E2. ob H g2 E3. injection H as <-.
  cbn [snd] in *. exact (pass_quiet _ _ _ _ _ Ha E1).
Qed.
Lemma prod_batch_quiet r a p b : VI (snd a) -> prod_batch expf logf gauss pgauss r a p = Ret b -> loud (snd a) (snd b).
Proof.
  destruct a as [[[a1 a2] a3] va]. intros Ha H. unfold prod_batch in H. ob H y E1. destruct y as [[[y1 y2] y3] w']. injection H as <-. cbn [snd] in *.
  refine (_ (ofold_inv (fun a => VI (snd a)) (fun a b => loud (snd a) (snd b)) _ _ _ _ _ (0%N, 0%N, 0%N, va) (y1, y2, y3, w') Ha E1)).
  - intros [Q _]. exact Q.
  - intros a. apply loud_refl.
  - intros a b' c. apply loud_trans.
  - intros a x a' Hb Eb. pose proof (prod_sample_quiet _ _ _ _ Hb Eb) as [Q V]. split; [split; assumption|eapply VI_quiet; eassumption].
Qed.
Lemma prod_batches_quiet r l a b : VI (snd a) -> ofold (prod_batch expf logf gauss pgauss r) l a = Ret b -> loud (snd a) (snd b).
Proof.
  intros Ha H. refine (_ (ofold_inv (fun a => VI (snd a)) (fun a b => loud (snd a) (snd b)) _ _ _ _ _ a b Ha H)).
  - intros [Q _]. exact Q.
  - intros a0. apply loud_refl.
  - intros a0 b' c. apply loud_trans.
  - intros a0 x a' Hb Eb. pose proof (prod_batch_quiet _ _ _ _ Hb Eb) as [Q V]. split; [split; assumption|eapply VI_quiet; eassumption].
Qed.
Lemma val_quiet r l a b : VI (snd a) -> ofold (val_sample expf logf gauss pgauss r) l a = Ret b -> loud (snd a) (snd b).
Proof.
  intros Ha H. refine (_ (ofold_inv (fun a => VI (snd a)) (fun a b => loud (snd a) (snd b)) _ _ _ _ _ a b Ha H)).
  - intros [Q _]. exact Q.
  - intros a0. apply loud_refl.
  - intros a0 b' c. apply loud_trans.
  - intros a0 x a' Hb Eb. unfold val_sample in Eb. ob Eb y E1. destruct y as [[[[[[y1 y2] y3] y4] y5] y6] w']. injection Eb as <-. cbn [snd] in *.
    destruct (pass_quiet _ _ _ _ _ Hb E1) as [Q V]. split; [split; assumption|eapply VI_quiet; eassumption].
Qed.
Lemma quiet_metrics v m : quiet v (with_metrics v m). Proof. destruct (quiet_refl v). constructor; auto. Qed.
Lemma prod_epochs_quiet fuel ts vs rt rv n : forall e v w, VI v -> prod_epochs expf logf gauss pgauss fuel v ts vs rt rv e n = Ret w -> quiet v w.
Proof.
  induction n as [|n IH]; intros e v w HV H; cbn [prod_epochs] in H; [injection H as <-; apply quiet_refl|].
  ob H bs E1. ob H q E2. destruct q as [[[el ek] er] v1]. ob H p E3. destruct p as [vl v2]. cbn [fst snd] in H.
  destruct (prod_batches_quiet (rt e) _ (0%N, 0%N, 0%N, v) (el, ek, er, v1) HV E2) as [Q1 _]. cbn [snd] in *. pose proof (VI_quiet _ _ Q1 HV) as HV1.
  destruct (val_quiet (rv e) _ (0%N, v1) (vl, v2) HV1 E3) as [Q2 _]. cbn [snd] in *. pose proof (VI_quiet _ _ Q2 HV1) as HV2.
  set (m := note_epoch _ _ _ _ _ _ _) in H. pose proof (quiet_metrics v2 m) as Q3.
  assert (Q : quiet v (with_metrics v2 m)) by (eapply quiet_trans; [exact Q1|eapply quiet_trans; eassumption]).
  destruct (_ <=? _)%Z; [injection H as <-; exact Q|]. eapply quiet_trans; [exact Q|]. eapply IH; [eapply VI_quiet; [exact Q3|exact HV2]|exact H].
Qed.
Lemma production_quiet fuel v td vd idx rt rv m w : VI v -> trainProduction expf logf gauss pgauss fuel v td vd idx rt rv = Ret (m, w) -> quiet v w /\ m = vmetrics w.
Proof.
  intros HV H. unfold trainProduction in H. ob H s E1. ob H w' E2. injection H as <- <-. split; [|reflexivity].
  eapply quiet_trans; [apply (quiet_metrics v new_metrics)|]. eapply prod_epochs_quiet; [|exact E2]. eapply VI_quiet; [apply quiet_metrics|exact HV].
Qed.

(** ** generate *)
Definition prior (v : vae) (s : N) (i : nat) : list N := map (fun j => gauss s (i * latent_dim v + j)) (seq 0 (latent_dim v)).
Lemma generate_from_ok k : forall v i s rad dd, VI v -> exists ys w, generate_from expf gauss v k i s rad dd = Ret (ys, w) /\ length ys = k /\ all_of (input_dim v) ys /\
  mild v w /\ own w = own v /\ vmetrics w = vmetrics v /\ (calm v rad -> quiet v w /\ ys = map (fun i => decoded expf v (prior v s i)) (seq i k)).
Proof.
  induction k as [|k IH]; intros v i s rad dd HV.
  - exists [], v. split; [reflexivity|]. split; [reflexivity|]. split; [constructor|]. split; [eapply mild_refl; eassumption|]. do 2 (split; [reflexivity|]). intros _. split; [apply quiet_refl|reflexivity].
  - cbn [generate_from]. fold (prior v s i).
    assert (Hz : length (prior v s i) = latent_dim v) by (unfold prior; rewrite map_length, seq_length; reflexivity).
    destruct (decode_ok v (prior v s i) rad (dd i) HV Hz) as (y & s' & _ & _ & _ & E). rewrite E. cbn [obind fst snd].
    destruct (decode_mild _ _ _ _ _ _ HV E) as (M & L & _ & _ & _ & O1 & V1 & Q). set (v1 := with_dec v s') in *. pose proof (VI_mild _ _ M HV) as HV1.
    destruct (IH v1 (S i) s rad dd HV1) as (ys & w & E' & L' & A & M' & O2 & V2 & Q'). rewrite E'. cbn [obind fst snd].
    destruct (input_mild _ _ M) as (D1 & D2 & D3). exists (applyInverseLogarithmics expf y :: ys), w. split; [reflexivity|]. split; [cbn [length]; congruence|].
    split; [constructor; [exact L|rewrite <- D1; exact A]|]. split; [eapply mild_trans; eassumption|]. split; [congruence|]. split; [congruence|].
    intros HC. destruct (Q HC) as [Q1 Ey]. destruct (Q' (calm_mild _ _ _ M HC)) as [Q2 Ey']. split; [eapply quiet_trans; eassumption|].
    cbn [seq map]. rewrite Ey. f_equal. rewrite Ey'. apply map_ext. intros j. rewrite (decoded_quiet _ _ _ Q1). unfold prior. rewrite D2. reflexivity.
Qed.
End V.
