(** C317-C342: VariationalAutoencoder<float> (research/variational_autoencoder). *)
From Coq Require Import List NArith ZArith Bool Arith Reals SpecFloat Lia Lra Permutation.
Import ListNotations.
From Verif Require Import Outcome Words Arith Floats FloatsR HealthFloat FloatsS Bits_Model MBP_Model PNN_Model PNN_Spec PNN_Proofs PNN2_Proofs Residual_Model Vae_Model Vae_Spec.
From Verif Require Import Vae_Proofs Vae2_Proofs Vae3_Proofs Vae4_Proofs Vae5_Proofs Vae6_Proofs Vae7_Proofs Vae8_Proofs Vae9_Proofs VaeA_Proofs.
Local Open Scope nat_scope.

(** ** library functions and an object for the examples *)
Definition toy_exp (x : sf) : sf := match x with S754_nan => S754_nan | _ => if fle x (sofZ 0) then sf32 f_one else if flt x (sf32 f_half) then sf32 f_one else sf32 f_two end.
Lemma toy_ok : exp_ok toy_exp.
Proof.
  assert (C : forall x, toy_exp x = S754_nan /\ x = S754_nan \/ toy_exp x = sf32 f_one \/ toy_exp x = sf32 f_two).
  { intros x. destruct x; cbn [toy_exp]; [right|right|left; split; reflexivity|right]; destruct (fle _ _); auto; destruct (flt _ _); auto. }
  destruct c_one as [O1 R1], c_two as [O2 R2]. constructor.
  - intros x _. destruct (C x) as [[-> _]|[->| ->]]; reflexivity.
  - reflexivity.
  - intros x _ N. right. destruct (C x) as [[_ E]|[->| ->]]; [contradiction| |]; split; try assumption; lra.
  - intros x [_ F] _. destruct (C x) as [[_ ->]|[->| ->]]; [discriminate F| |]; split; try assumption; lra.
Qed.
Definition idf (x : sf) : sf := x.
Definition no_gauss : N -> nat -> N := fun _ _ => 0%N.
Definition mean_gauss : N -> nat -> N -> N -> N := fun _ _ m _ => m.
Definition cfg0 : vcfg := mkVcfg 1 f_one false f_half 2 3 1045220557 5 0 STANDARD 0.
Definition cfg1 : vcfg := mkVcfg 1 f_one true f_half 2 3 1045220557 5 0 STANDARD 0.
Definition init0 : nat -> nat -> nat -> N := fun _ _ _ => f_half.
Definition init00 : nat -> nat -> nat -> N := fun _ _ _ => 0%N.
Lemma built expf tanhf logf gauss pgauss addr inp lat hid lv c i1 i2 i3 : no_double_zero (inp :: hid ++ [2 * lat]) -> no_double_zero (lat :: rev hid ++ [inp]) -> 0 < lat ->
  exists v, vae_new expf tanhf addr inp lat hid lv c i1 i2 i3 = Ret v /\ vreachable expf logf tanhf gauss pgauss v /\ (input_dim v, latent_dim v, hidden v, vlevel v, vcf v, self v) = (inp, lat, hid, lv, owned c addr, addr).
Proof.
  intros H1 H2 H3. destruct (new_nets_ok expf tanhf inp lat hid lv i1 i2 i3 H1 H2 H3) as (e & d & i & E1 & E2 & E3).
  assert (E : vae_new expf tanhf addr inp lat hid lv c i1 i2 i3 = Ret (mkVae addr e d i inp lat hid lv (owned c addr) new_metrics (mkStats 0 0 0))) by (unfold vae_new; rewrite E1, E2, E3; reflexivity).
  eexists. split; [exact E|]. split; [|reflexivity]. repeat eexists; [exact E|]. instantiate (1 := []). reflexivity.
Qed.
Lemma ex_vae c lv : exists v, vreachable toy_exp idf idf no_gauss mean_gauss v /\ (input_dim v, latent_dim v, vlevel v, vcf v, self v) = (2, 1, lv, owned c 7, 7%N).
Proof.
  destruct (built toy_exp idf idf no_gauss mean_gauss 7 2 1 [3] lv c init0 init0 init0) as (v & _ & H & E); [cbn; lia|cbn; lia|lia|]. exists v. split; [exact H|]. congruence.
Qed.
Section P.
Variables (expf logf tanhf : sf -> sf) (gauss : N -> nat -> N) (pgauss : N -> nat -> N -> N -> N).
Local Notation reach := (vreachable expf logf tanhf gauss pgauss).
Local Notation VI := (VInv expf tanhf).

(** ** C317: encode *)
Theorem C317_encode : forall v x rad d, reach v ->
  (length x = input_dim v -> exists m l w, encode logf v x rad d = Ret (m, l, w) /\ length m = latent_dim v /\ length l = latent_dim v /\ Forall (between (-10) 10) l /\ reach w) /\
  (length x <> input_dim v -> encode logf v x rad d = Throw E_invalid_argument).
Proof.
  intros v x rad d HR. pose proof (reachable_VI _ _ _ _ _ _ HR) as HV. split.
  - intros L. destruct (encode_ok expf logf tanhf v x rad d HV L) as (y & s' & E & Ly & _ & EE). eexists _, _, _. split; [exact EE|].
    destruct (encode_mild expf logf tanhf _ _ _ _ _ _ _ HV EE) as (_ & L1 & L2 & _). split; [exact L1|]. split; [exact L2|]. split; [apply Forall_map, Forall_forall; intros a _; apply clamp_range|].
    destruct HR as (addr & inp & lat & hid & lv & c & i1 & i2 & i3 & v0 & ops & E0 & ER). exists addr, inp, lat, hid, lv, c, i1, i2, i3, v0, (ops ++ [VEncode x rad d]). split; [exact E0|].
    clear - ER EE. revert v0 ER. induction ops as [|o ops IH]; intros v0 ER; cbn [vrun app] in *.
    + injection ER as <-. cbn [vstep]. rewrite EE. reflexivity.
    + destruct (vstep _ _ _ _ v0 o) as [v1|u|e|]; try discriminate ER. cbn [obind] in *. apply IH, ER.
  - intros L. exact (encode_wrong expf logf tanhf v x rad d HV L).
Qed.
(** ** C318: encoding and decoding do not change the answers, and depend on nothing else *)
Theorem C318_deterministic : forall v x z rad d, reach v -> calm v rad ->
  (length x = input_dim v -> exists w, encode logf v x rad d = Ret (fst (encoded logf v x), snd (encoded logf v x), w) /\ weights_of w = weights_of v /\ (forall y, encoded logf w y = encoded logf v y) /\ (forall y, decoded expf w y = decoded expf v y)) /\
  (length z = latent_dim v -> exists w, decode expf v z rad d = Ret (decoded expf v z, w) /\ weights_of w = weights_of v /\ (forall y, encoded logf w y = encoded logf v y) /\ (forall y, decoded expf w y = decoded expf v y)).
Proof.
  intros v x z rad d HR HC. pose proof (reachable_VI _ _ _ _ _ _ HR) as HV. split; intros L.
  - destruct (encode_quiet expf logf tanhf v x rad d HV HC L) as (s' & C & Ly & E). exists (with_enc v s'). pose proof (quiet_enc v s' C) as Q. split; [exact E|].
    split; [exact (weights_mild _ _ (quiet_mild _ _ _ _ HV Q))|]. split; intros y; [apply encoded_quiet, Q|apply decoded_quiet, Q].
  - destruct (decode_quiet expf tanhf v z rad d HV HC L) as (s' & C & Ly & E). exists (with_dec v s'). pose proof (quiet_dec v s' C) as Q. split; [exact E|].
    split; [exact (weights_mild _ _ (quiet_mild _ _ _ _ HV Q))|]. split; intros y; [apply encoded_quiet, Q|apply decoded_quiet, Q].
Qed.
(** ** C319: what decode and forward can produce *)
Theorem C319_range_partial : forall v z rad d, exp_ok expf -> reach v -> calm v rad -> length z = latent_dim v ->
  exists y w, decode expf v z rad d = Ret (y, w) /\ length y = input_dim v /\ Forall (fun a => is_nan32 a \/ between 0 (175 / 100) a) y.
Proof.
  intros v z rad d HE HR HC L. pose proof (reachable_VI _ _ _ _ _ _ HR) as HV. destruct (decode_quiet expf tanhf v z rad d HV HC L) as (s' & C & Ly & E).
  eexists _, _. split; [exact E|]. split; [exact Ly|]. exact (decoded_range expf tanhf v z HE HV).
Qed.
Theorem C319_reconstruction_refuted : forall v x rad de dd r n i, exp_ok expf -> reach v -> still v rad -> length x = input_dim v -> i < input_dim v -> finite32 (nth i x 0%N) -> (2 <= R (sf32 (nth i x 0%N)))%R ->
  exists y w, vforward expf logf gauss pgauss v x rad de dd r n = Ret (y, w) /\ (is_nan32 (nth i y 0%N) \/ (R (sf32 (nth i y 0%N)) <= R (sf32 (nth i x 0%N)) - 1 / 4)%R).
Proof.
  intros v x rad de dd r n i HE HR HS L Hi Fx Gx. pose proof (reachable_VI _ _ _ _ _ _ HR) as HV. destruct (forward_still expf logf tanhf gauss pgauss v x rad de dd r n HV HS L) as (w & E & _).
  eexists _, _. split; [exact E|]. pose proof (decoded_range expf tanhf v (latent expf logf gauss pgauss v x r) HE HV) as F. rewrite Forall_forall in F.
  destruct (F (nth i (decoded expf v (latent expf logf gauss pgauss v x r)) 0%N)) as [N|[_ B]]; [|left; exact N|right; lra].
  apply nth_In. destruct (forward_ok expf logf tanhf gauss pgauss v x rad de dd r n HV L) as (y & w' & E' & Ly & _). rewrite E in E'. injection E' as <- <-. rewrite Ly. exact Hi.
Qed.
(** ** C320: sampling *)
Theorem C320_sample : forall v m l seed r, 
  (latent_dim v <= length m -> latent_dim v <= length l -> exists z, sample expf gauss pgauss v m l seed r = Ret z /\ length z = latent_dim v /\
     forall i, i < latent_dim v -> nth i z 0%N = drawn expf gauss pgauss (c_sampling (vcf v)) (if (seed =? 0)%N then r mod 2 ^ 32 else seed mod 2 ^ 32)%N m l i) /\
  (length m < latent_dim v \/ length l < latent_dim v -> sample expf gauss pgauss v m l seed r = UB UB_array_index).
Proof.
  intros v m l seed r. split.
  - intros H1 H2. eexists. split; [exact (sample_ok expf gauss pgauss v m l seed r H1 H2)|]. split; [rewrite map_length, seq_length; reflexivity|]. intros i Hi.
    rewrite (nth_indep _ 0%N (drawn expf gauss pgauss (c_sampling (vcf v)) (engine_seed seed r) m l 0)) by (rewrite map_length, seq_length; exact Hi). rewrite map_nth, seq_nth by exact Hi. cbn [plus].
    unfold engine_seed, wrap. destruct (seed =? 0)%N; reflexivity.
  - apply sample_ub.
Qed.
Theorem C320_seeds : forall v m l s t r q, (s mod 2 ^ 32 = t mod 2 ^ 32)%N -> s <> 0%N -> t <> 0%N -> sample expf gauss pgauss v m l s r = sample expf gauss pgauss v m l t q.
Proof.
  intros v m l s t r q E H1 H2. unfold sample. assert (EE : engine_seed s r = engine_seed t q); [|rewrite EE; reflexivity]. unfold engine_seed, wrap.
  apply N.eqb_neq in H1, H2. rewrite H1, H2. exact E.
Qed.
(** ** C321: protection of the latent values *)
Theorem C321_protect_partial : forall v z rad n, (fgt rad (dlit 5 10) = false) -> Forall (fun a => finite32 a /\ (Rabs (R (sf32 a)) < Raux.bpow Zaux.radix2 127)%R) z ->
  exists z' w, protectLatentVariables v z rad n = (z', w) /\ map sf32 z' = map sf32 z /\ w = v.
Proof.
  intros v z rad n G F. unfold protectLatentVariables. destruct (fgt rad (dlit 1 10)); [|exists z, v; auto].
  assert (H : forall i t, map sf32 (fst (protect_all z rad n i t)) = map sf32 z /\ snd (protect_all z rad n i t) = t).
  { induction F as [|a z [Fa Ba] Fz IH]; intros i t; cbn [protect_all]; [auto|]. destruct (n i) as [[n1 n2] n3]. destruct (protect_calm a rad n1 n2 n3 G Fa Ba) as [E1 E2].
    destruct (protect_one a rad n1 n2 n3) as [r moved]. cbn [fst snd] in E1, E2. subst moved. specialize (IH (S i) t). destruct (protect_all z rad n (S i) t) as [z' t']. cbn [fst snd map] in *. destruct IH as [-> ->]. rewrite E1. auto. }
  specialize (H 0 (own v)). destruct (protect_all z rad n 0 (own v)) as [z' t']. cbn [fst snd] in H. destruct H as [H ->]. exists z', (with_own v (own v)). split; [reflexivity|]. split; [exact H|]. destruct v; reflexivity.
Qed.
(** above 0.5 a value is moved and the move is counted as a corrected error; and at any radiation over 0.1, 2^127 becomes infinite *)
Theorem C321_protect_refuted : forall v, exists n,
  (forall rad, fgt rad (dlit 1 10) = true -> fgt rad (dlit 5 10) = true -> exists r w, protectLatentVariables v [f_one] rad n = ([r], w) /\ sf32 r <> sf32 f_one /\ finite32 r /\ corrected (own w) = (corrected (own v) + 1)%N) /\
  (forall rad, fgt rad (dlit 1 10) = true -> fgt rad (dlit 5 10) = false -> exists r w, protectLatentVariables v [2130706432%N] rad n = ([r], w) /\ finite32 2130706432%N /\ sf32 r = S754_infinity false /\ corrected (own w) = (corrected (own v) + 1)%N).
Proof.
  intros v. exists (fun _ => (1008981770, 1008981770, 1008981770)%N). split; intros rad G1 G2; unfold protectLatentVariables; rewrite G1; cbn [protect_all].
  - assert (E : protect_one f_one rad 1008981770 1008981770 1008981770 = (1065437102%N, true)) by (unfold protect_one; rewrite G2; vm_compute; reflexivity).
    rewrite E. eexists _, _. split; [reflexivity|]. split; [vm_compute; discriminate|]. split; [split; vm_compute; reflexivity|reflexivity].
  - assert (E : protect_one 2130706432 rad 1008981770 1008981770 1008981770 = (2139095040%N, true)) by (unfold protect_one; rewrite G2; vm_compute; reflexivity).
    rewrite E. eexists _, _. split; [reflexivity|]. split; [split; reflexivity|]. split; [vm_compute; reflexivity|reflexivity].
Qed.
(** ** C322: interpolation *)
Theorem C322_linear_partial : forall v z1 z2 alpha rad di dd, reach v -> calm v rad -> c_interp (vcf v) = false -> length z1 = latent_dim v -> length z2 = latent_dim v ->
  exists w, interpolate expf v z1 z2 alpha rad di dd = Ret (decoded expf v (blended alpha (latent_dim v) z1 z2), w) /\
    (alpha = 0%N -> Forall plain z1 -> Forall finite32 z2 -> blended alpha (latent_dim v) z1 z2 = z1) /\
    (alpha = f_one -> Forall finite32 z1 -> Forall plain z2 -> blended alpha (latent_dim v) z1 z2 = z2).
Proof.
  intros v z1 z2 alpha rad di dd HR HC HF L1 L2. pose proof (reachable_VI _ _ _ _ _ _ HR) as HV. destruct (interpolate_calm expf tanhf v z1 z2 alpha rad di dd HV HC L1 L2) as (w & E & _).
  exists w. split; [rewrite E; unfold interpolated; rewrite HF; reflexivity|]. split; intros -> F1 F2; [apply blended_0|apply blended_1]; assumption.
Qed.
Theorem C322_sizes_partial : forall v z1 z2 alpha rad di dd, reach v ->
  (length z1 = latent_dim v -> length z2 = latent_dim v -> exists y w, interpolate expf v z1 z2 alpha rad di dd = Ret (y, w) /\ length y = input_dim v) /\
  (c_interp (vcf v) = true -> length z1 + length z2 <> 2 * latent_dim v -> interpolate expf v z1 z2 alpha rad di dd = Throw E_invalid_argument) /\
  (c_interp (vcf v) = false -> length z1 < latent_dim v \/ length z2 < latent_dim v -> interpolate expf v z1 z2 alpha rad di dd = UB UB_array_index).
Proof.
  intros v z1 z2 alpha rad di dd HR. pose proof (reachable_VI _ _ _ _ _ _ HR) as HV.
  split; [apply (interpolate_ok expf tanhf); assumption|]. split; [apply (interpolate_wrong expf tanhf); assumption|apply (interpolate_short expf tanhf); assumption].
Qed.
(** with use_interpolation, alpha = 1 gives what the interpolation network says, not z2: for this network both ends 1 and -10 give the decoding of 0 *)
Theorem C322_network_refuted : tanhf (S754_zero false) = S754_zero false -> exists v, reach v /\ c_interp (vcf v) = true /\
  forall rad di dd, calm v rad -> (exists w, interpolate expf v [0%N] [f_one] f_one rad di dd = Ret (decoded expf v [0%N], w)) /\ (exists w, interpolate expf v [0%N] [f_mten] f_one rad di dd = Ret (decoded expf v [0%N], w)).
Proof.
  intros HT. destruct (built expf tanhf logf gauss pgauss 7 1 1 [1] NONE_ cfg1 init0 init0 init00) as (v & E & HR & D); [cbn; lia|cbn; lia|lia|]. exists v. split; [exact HR|].
  injection D as D1 D2 D3 D4 D5 D6. split; [rewrite D5; reflexivity|]. intros rad di dd HC. pose proof (reachable_VI _ _ _ _ _ _ HR) as HV.
  assert (EI : exists i, initializeInterpolator tanhf 1 [1] NONE_ init00 = Ret i /\ params i = [([[0%N]; [0%N]], [0%N]); ([[0%N]], [0%N])] /\ acts i = [tanh32 tanhf; linear]).
  { eexists. split; [reflexivity|]. split; [vm_compute; reflexivity|reflexivity]. }
  destruct EI as (i & EI & PI & AI).
  assert (Ev : itp v = i). { unfold vae_new in E. destruct (initializeEncoder _ _ _ _ _) as [e|?|?|]; try discriminate E. cbn [obind] in E. destruct (initializeDecoder _ _ _ _ _ _) as [d|?|?|]; try discriminate E. cbn [obind] in E. rewrite EI in E. cbn [obind] in E. injection E as <-. reflexivity. }
  assert (T0 : tanh32 tanhf 0 = 0%N) by (unfold tanh32, lib; change (sf32 0) with (S754_zero false); rewrite HT; reflexivity).
  assert (NE : forall b, b = f_one \/ b = f_mten -> network (params (itp v)) (acts (itp v)) ([0%N] ++ [b]) = [0%N]).
  { intros b Hb. rewrite Ev, PI, AI. cbn [network app]. unfold dense at 2. cbn [length seq map fold_left nth].
    assert (F0 : f32add (f32add 0 (f32mul 0 0)) (f32mul 0 b) = 0%N) by (destruct Hb as [->| ->]; vm_compute; reflexivity). rewrite F0, T0. vm_compute. reflexivity. }
  split; [destruct (interpolate_calm expf tanhf v [0%N] [f_one] f_one rad di dd HV HC) as (w & EW & _)|destruct (interpolate_calm expf tanhf v [0%N] [f_mten] f_one rad di dd HV HC) as (w & EW & _)];
    try (rewrite D2; reflexivity); exists w; rewrite EW; unfold interpolated; rewrite D5; cbn [c_interp owned cfg1]; rewrite NE by auto; rewrite D2; do 3 f_equal.
Qed.
(** ** C323: generation *)
Theorem C323_generate : forall v k rad seed r dd, reach v -> exists ys w, generate expf gauss v k rad seed r dd = Ret (ys, w) /\ length ys = k /\ all_of (input_dim v) ys /\ weights_of w = weights_of v /\
  (calm v rad -> forall i, i < k -> nth i ys [] = decoded expf v (map (fun j => gauss (if (seed =? 0)%N then r mod 2 ^ 32 else seed mod 2 ^ 32)%N (i * latent_dim v + j)) (seq 0 (latent_dim v)))).
Proof.
  intros v k rad seed r dd HR. pose proof (reachable_VI _ _ _ _ _ _ HR) as HV. destruct (generate_from_ok expf tanhf gauss k v 0 (engine_seed seed r) rad dd HV) as (ys & w & E & L & A & M & _ & _ & C).
  exists ys, w. split; [exact E|]. split; [exact L|]. split; [exact A|]. split; [exact (weights_mild _ _ M)|]. intros HC i Hi. destruct (C HC) as [_ ->].
  rewrite (nth_indep _ [] (decoded expf v (prior gauss v (engine_seed seed r) 0))) by (rewrite map_length, seq_length; exact Hi).
  change (decoded expf v (prior gauss v (engine_seed seed r) 0)) with ((fun i => decoded expf v (prior gauss v (engine_seed seed r) i)) 0). rewrite map_nth, seq_nth by exact Hi. cbn [plus]. unfold prior. do 2 f_equal. unfold engine_seed, wrap.
  destruct (seed =? 0)%N; reflexivity.
Qed.
(** ** C324: training does not fit anything *)
Theorem C324_training_refuted : forall v, reach v ->
  (forall fuel data e b idx q r w, vtrain expf logf gauss pgauss fuel v data e b idx q = Ret (r, w) -> weights_of w = weights_of v /\ (forall x, encoded logf w x = encoded logf v x) /\ (forall z, decoded expf w z = decoded expf v z)) /\
  (forall fuel td vd idx rt rv m w, trainProduction expf logf gauss pgauss fuel v td vd idx rt rv = Ret (m, w) -> weights_of w = weights_of v /\ (forall x, encoded logf w x = encoded logf v x) /\ (forall z, decoded expf w z = decoded expf v z)).
Proof.
  intros v HR. pose proof (reachable_VI _ _ _ _ _ _ HR) as HV. split; intros.
  - destruct (vtrain_quiet _ _ tanhf _ _ _ _ _ _ _ _ _ _ _ HV H) as [Q _]. split; [exact (weights_mild _ _ (quiet_mild _ _ _ _ HV Q))|]. split; intros; [apply encoded_quiet, Q|apply decoded_quiet, Q].
  - destruct (production_quiet _ _ tanhf _ _ _ _ _ _ _ _ _ _ _ HV H) as [Q _]. split; [exact (weights_mild _ _ (quiet_mild _ _ _ _ HV Q))|]. split; intros; [apply encoded_quiet, Q|apply decoded_quiet, Q].
Qed.
(** ** C325: the loss train() returns *)
Theorem C325_train_partial : forall fuel v data epochs batch idx q, reach v -> all_of (input_dim v) data -> (N.of_nat (length data) < 2 ^ 63)%N -> length data < fuel ->
  (forall e, shuffle (length data) (idx e)) -> (c_interp (vcf v) = true -> latent_dim v <= input_dim v) ->
  let bs := size_of_int (if (batch =? -1)%Z then c_batch (vcf v) else batch) in let n := Z.to_nat (if (epochs =? -1)%Z then c_epochs (vcf v) else epochs) in
  (0 < bs)%N -> exists loss w, vtrain expf logf gauss pgauss fuel v data epochs batch idx q = Ret (loss, w) /\ vmetrics w = vmetrics v /\
   loss = match n with O => 0%N | S k => mean_of_batches (fun p => legacy_loss expf logf gauss pgauss v (snd p) (q k (fst p))) (N.of_nat (length data) / bs + 1) (cut (N.to_nat bs) (index 0 (map (fun i => nth i data []) (idx k)))) end.
Proof.
  intros fuel v data epochs batch idx q HR HA Hn Hf HS HI bs n Hb. pose proof (reachable_VI _ _ _ _ _ _ HR) as HV. destruct (vtrain_ok expf logf tanhf gauss pgauss fuel v data epochs batch idx q Hn Hf HV HA HS HI Hb) as (w & E & _ & M).
  eexists _, w. split; [exact E|]. split; [exact M|reflexivity].
Qed.
(** the sum over the batches is divided by their number only if the last batch is not full; otherwise by one more *)
Theorem C325_divisor_refuted : forall (data : list (list N)) bs, 0 < bs -> data <> [] ->
  length (concat (cut bs data)) = length data /\ Forall (fun b => 0 < length b <= bs) (cut bs data) /\
  (N.of_nat (length data) / N.of_nat bs + 1 = N.of_nat (length (cut bs data)) + (if (length data mod bs =? 0)%nat then 1 else 0))%N.
Proof.
  intros data bs Hb Hd. unfold cut. rewrite (cut_concat bs Hb _ _ (le_n _)). split; [reflexivity|]. split; [apply cut_sizes; [exact Hb|lia]|].
  rewrite (cut_count bs Hb _ _ (le_n _)). rewrite <- Nnat.Nat2N.inj_div. pose proof (Nat.div_mod (length data) bs ltac:(lia)) as DM. pose proof (Nat.mod_upper_bound (length data) bs ltac:(lia)) as UB.
  destruct (Nat.eqb_spec (length data mod bs) 0) as [Z|Z].
  - assert (E : (length data + bs - 1) / bs = length data / bs); [|rewrite E; lia]. symmetry. apply Nat.div_unique with (bs - 1); [lia|].
    assert (0 < length data) by (destruct data; [congruence|cbn; lia]). lia.
  - assert (E : (length data + bs - 1) / bs = length data / bs + 1); [|rewrite E; lia]. symmetry. apply Nat.div_unique with (length data mod bs - 1); [lia|]. rewrite Nat.mul_add_distr_l. lia.
Qed.
(** ** C326: a batch size of zero *)
Theorem C326_zero_batch_refuted : forall fuel v data idx q epochs, (0 < epochs)%Z ->
  (data <> [] -> vtrain expf logf gauss pgauss fuel v data epochs 0 idx q = OutOfFuel) /\
  (data = [] -> 0 < fuel -> vtrain expf logf gauss pgauss fuel v data epochs 0 idx q = UB UB_div_zero) /\
  (forall vd rt rv, data <> [] -> vd <> [] -> c_batch (vcf v) = 0%Z -> (0 < c_epochs (vcf v))%Z -> trainProduction expf logf gauss pgauss fuel v data vd (idx 0) rt rv = OutOfFuel).
Proof.
  intros fuel v data idx q epochs He. destruct (vtrain_zero expf logf gauss pgauss fuel v data epochs 0 idx q) as [A B]; [reflexivity|destruct (Z.eqb_spec epochs (-1)); lia|].
  split; [exact A|]. split; [exact B|]. intros vd rt rv Hd Hv Hb Hc. apply (production_hang _ _ _ _ _ _ _ _ _ _ _ data vd Hd); [rewrite Hb; reflexivity|exact Hc|]. destruct vd; [congruence|reflexivity].
Qed.
(** ** C327: the split into training and validation data *)
Theorem C327_partition_partial : forall v data idx a b, shuffle (length data) idx -> splitTrainValidation v data idx = Ret (a, b) -> Permutation (a ++ b) data.
Proof. intros v data idx a b S E. exact (proj1 (split_perm v data idx a b S E)). Qed.
Theorem C327_split_partial : forall v data idx, shuffle (length data) idx -> (N.of_nat (length data) <= 2 ^ 24)%N -> between 0 1 (c_split (vcf v)) ->
  exists a b, splitTrainValidation v data idx = Ret (a, b) /\ (Rabs (INR (length a) - INR (length data) * (1 - R (sf32 (c_split (vcf v))))) <= 4)%R.
Proof.
  intros v data idx S L B. destruct (split_count _ _ L B) as (k & E & K & D). destruct (proj1 (split_ret v data idx k S E) K) as (a & b & ER). exists a, b. split; [exact ER|].
  destruct (split_perm v data idx a b S ER) as (_ & k' & E' & K'). rewrite E in E'. injection E' as <-. rewrite <- K' in D. rewrite !nat_N_Z in D. rewrite <- !INR_IZR_INZ in D. exact D.
Qed.
Theorem C327_split_refuted : forall v data idx, shuffle (length data) idx ->
  (N.of_nat (length data) = 16777219%N -> c_split (vcf v) = 0%N -> splitTrainValidation v data idx = Throw E_bad_alloc) /\
  (is_nan32 (c_split (vcf v)) -> splitTrainValidation v data idx = UB UB_float_to_int).
Proof.
  intros v data idx S. split.
  - intros L E. assert (T : exists k, to_size (sf32 (f32mul (f32ofN 16777219) (f32sub f_one 0))) = Ret k) by (eexists; vm_compute; reflexivity). destruct T as [k T].
    assert (T' : to_size (sf32 (f32mul (f32ofN (N.of_nat (length data))) (f32sub f_one (c_split (vcf v))))) = Ret k) by (rewrite L, E; exact T).
    apply (proj2 (split_ret v data idx k S T')). rewrite L. exact (split_large k T).
  - intros E. unfold splitTrainValidation. rewrite sf32_mul, sf32_sub, E. change (ssub (sf32 f_one) S754_nan) with S754_nan. replace (smul (sf32 (f32ofN (N.of_nat (length data)))) S754_nan) with S754_nan; [reflexivity|].
    destruct (sf32 (f32ofN (N.of_nat (length data)))); reflexivity.
Qed.
(** ** C328: batches *)
Theorem C328_batches : forall fuel data batch, (N.of_nat (length data) < 2 ^ 63)%N -> length data < fuel -> (0 < Z.abs batch < 2 ^ 31)%Z ->
  exists bs, createBatches fuel data batch = Ret bs /\ concat bs = data /\ Forall (fun b => b <> []) bs /\
    ((0 < batch)%Z -> bs = cut (Z.to_nat batch) data /\ Forall (fun b => (Z.of_nat (length b) <= batch)%Z) bs /\ length bs = (length data + Z.to_nat batch - 1) / Z.to_nat batch) /\
    ((batch < 0)%Z -> data <> [] -> bs = [data]).
Proof.
  intros fuel data batch Hn Hf Hb. assert (Hz : (batch mod 2 ^ 64 <> 0)%Z).
  { destruct (Z_lt_le_dec batch 0) as [Q|Q]; [|rewrite Z.mod_small; lia]. replace batch with (2 ^ 64 + batch + -1 * 2 ^ 64)%Z by lia. rewrite Z.mod_add by lia. rewrite Z.mod_small; lia. }
  rewrite createBatches_ok by assumption. pose proof (size_of_int_pos _ Hz) as Hp. eexists. split; [reflexivity|]. unfold cut. split; [apply cut_concat; lia|].
  split; [eapply Forall_impl; [|apply cut_sizes; lia]; cbv beta; intros b B C; subst b; cbn in B; lia|]. split.
  - intros P. assert (E : N.to_nat (size_of_int batch) = Z.to_nat batch) by (unfold size_of_int; rewrite Z.mod_small; lia). rewrite E. split; [reflexivity|].
    split; [eapply Forall_impl; [|apply cut_sizes; lia]; cbv beta; intros b B; lia|apply cut_count; lia].
  - intros Ng Hd. assert (E : size_of_int batch = Z.to_N (2 ^ 64 + batch)) by (unfold size_of_int; replace batch with (2 ^ 64 + batch + -1 * 2 ^ 64)%Z at 1 by lia; rewrite Z.mod_add by lia; rewrite Z.mod_small; lia).
    rewrite E. destruct data as [|x data]; [congruence|]. cbn [length cut_]. rewrite firstn_all2, skipn_all2 by (cbn [length] in *; lia). destruct (length data); reflexivity.
Qed.
(** ** C329: trainProduction stops when patience is used up, and its metrics are those of the validation losses *)
Theorem C329_early_stopping : forall fuel v td vd idx rt rv ts vs, reach v -> (N.of_nat (length ts) < 2 ^ 63)%N -> length ts < fuel -> (0 < Z.abs (c_batch (vcf v)) < 2 ^ 31)%Z ->
  all_of (input_dim v) ts -> all_of (input_dim v) vs -> (vd = [] /\ splitTrainValidation v td idx = Ret (ts, vs)) \/ (vd <> [] /\ (ts, vs) = (td, vd)) ->
  exists m w epochs, trainProduction expf logf gauss pgauss fuel v td vd idx rt rv = Ret (m, w) /\ m = vmetrics w /\ epochs <= Z.to_nat (c_epochs (vcf v)) /\ (0 < Z.to_nat (c_epochs (vcf v)) -> 0 < epochs) /\
    tracked (vcf v) m epochs /\ trained_on expf logf gauss pgauss v ts vs rt rv m /\
    (epochs = Z.to_nat (c_epochs (vcf v)) \/ (c_patience (vcf v) <= without_improvement m)%Z).
Proof.
  intros fuel v td vd idx rt rv ts vs HR Hn Hf Hb HT HS HE. pose proof (reachable_VI _ _ _ _ _ _ HR) as HV.
  assert (Hz : (c_batch (vcf v) mod 2 ^ 64 <> 0)%Z).
  { destruct (Z_lt_le_dec (c_batch (vcf v)) 0) as [Q|Q]; [|rewrite Z.mod_small; lia]. replace (c_batch (vcf v)) with (2 ^ 64 + c_batch (vcf v) + -1 * 2 ^ 64)%Z by lia. rewrite Z.mod_add by lia. rewrite Z.mod_small; lia. }
  assert (HE' : (match vd with [] => splitTrainValidation v td idx | _ => Ret (td, vd) end) = Ret (ts, vs)). { destruct HE as [[-> E]|[Nv E]]; [exact E|]. destruct vd; [congruence|]. congruence. }
  destruct (production_ok expf logf tanhf gauss pgauss fuel v td vd idx rt rv ts vs HV Hn Hf Hz HT HS HE') as (m & w & k & E & Em & _ & Hk & TR & TO & HD & H0). exists m, w, k. auto 10.
Qed.
(** ** C330: no validation data, or no training data: every loss is NaN *)
Theorem C330_empty_refuted : forall v ts vs rt rv m epochs, tracked (vcf v) m epochs -> trained_on expf logf gauss pgauss v ts vs rt rv m ->
  (vs = [] -> val_losses m = repeat nan32 epochs /\ best_val_loss m = f_max /\ without_improvement m = Z.of_nat epochs) /\
  (ts = [] -> train_losses m = repeat nan32 epochs /\ kl_losses m = repeat nan32 epochs /\ recon_losses m = repeat nan32 epochs).
Proof.
  intros v ts vs rt rv m epochs TR TO. destruct (t_len _ _ _ TR) as (L & _). destruct TO as (T1 & T2 & T3 & T4). rewrite L in T1, T2, T3, T4. split.
  - intros ->. assert (V : val_losses m = repeat nan32 epochs). { rewrite T4. rewrite (map_ext _ (fun _ => nan32)) by (intros e; apply mean_empty). rewrite repeat_map, seq_length. reflexivity. }
    split; [exact V|]. rewrite (t_best _ _ _ TR), (t_stale _ _ _ TR), V, best_nan, stale_nan. split; [reflexivity|lia].
  - intros ->. rewrite T1, T2, T3, cut_nil. split; [|split]; (rewrite (map_ext _ (fun _ => nan32)) by (intros e; apply epoch_empty); rewrite repeat_map, seq_length; reflexivity).
Qed.
Theorem C330_when_partial : forall v data idx a b, shuffle (length data) idx -> splitTrainValidation v data idx = Ret (a, b) ->
  (data = [] -> a = [] /\ b = []) /\ (length data = 1 -> (a = [] /\ b = data) \/ (a = data /\ b = [])).
Proof.
  intros v data idx a b S E. destruct (split_perm v data idx a b S E) as [P _]. split.
  - intros ->. apply Permutation_sym, Permutation_nil in P. apply app_eq_nil in P. exact P.
  - intros L. destruct data as [|x [|y data]]; try discriminate L. apply Permutation_sym, Permutation_length_1_inv in P. destruct a as [|a1 a]; [left; auto|right]. cbn in P. injection P as -> P. apply app_eq_nil in P. destruct P as [-> ->]. auto.
Qed.
(** ** C331: error statistics *)
Theorem C331_stats : forall v, reach v -> (snd (vgetErrorStats v) <= fst (vgetErrorStats v))%N /\ vgetErrorStats (vresetErrorStats v) = (0, 0)%N /\
  fst (vgetErrorStats v) = fold_right N.add 0%N (detected (own v) :: map (fun net => fst (getErrorStats net)) [enc v; dec v; itp v]) /\
  snd (vgetErrorStats v) = fold_right N.add 0%N (corrected (own v) :: map (fun net => snd (getErrorStats net)) [enc v; dec v; itp v]) /\
  (forall rad w1 w2 w3 b1 b2 b3 w, vapplyRadiationEffects v rad w1 w2 w3 b1 b2 b3 = Ret w -> vgetErrorStats w = vgetErrorStats v) /\
  (forall x rad de dd r n y w, still v rad -> vforward expf logf gauss pgauss v x rad de dd r n = Ret (y, w) -> vgetErrorStats w = vgetErrorStats v).
Proof.
  intros v HR. pose proof (reachable_VI _ _ _ _ _ _ HR) as HV. split; [exact (stats_le _ _ _ HV)|]. split; [reflexivity|]. split; [unfold vgetErrorStats; cbn [fst map fold_right]; lia|]. split; [unfold vgetErrorStats; cbn [snd map fold_right]; lia|]. split; [intros; eapply stats_radiation; eassumption|].
  intros x rad de dd r n y w HS E. destruct (Nat.eq_dec (length x) (input_dim v)) as [L|L].
  - destruct (forward_still expf logf tanhf gauss pgauss v x rad de dd r n HV HS L) as (w' & E' & Q & _). rewrite E in E'. injection E' as _ <-. exact (stats_quiet _ _ Q).
  - rewrite (forward_wrong expf logf tanhf gauss pgauss v x rad de dd r n HV L) in E. discriminate E.
Qed.
(** ** C332-C335: files *)
Section F.
Variables (cfg_bytes : vcfg -> list N) (cfg_of : list N -> vcfg).
Theorem C332_load_refuted : forall v o opt file alloc i1 i2 i3, saveModel cfg_bytes o true opt = (true, file) -> loadModel expf tanhf cfg_bytes cfg_of v file alloc i1 i2 i3 = Ret (false, v).
Proof. intros. apply loadModel_false. Qed.
Theorem C332_load_partial : forall v file alloc i1 i2 i3, loadModel expf tanhf cfg_bytes cfg_of v file alloc i1 i2 i3 = Ret (false, v).
Proof. intros. apply loadModel_false. Qed.
Hypothesis fixed_size : forall a b, length (cfg_bytes a) = length (cfg_bytes b).
Hypothesis read_back : forall c, cfg_of (cfg_bytes c) = c.
(* dimensions and options come back; the networks are new, made of the random numbers i1, i2, i3: whatever o's weights were, they are the same *)
Theorem C333_file_partial : forall v o alloc i1 i2 i3 f, reach v -> reach o -> fits (input_dim o) -> fits (latent_dim o) -> fits (length (hidden o)) -> Forall fits (hidden o) -> alloc (8 * N.of_nat (length (hidden o)))%N = true ->
  no_double_zero (enc_sizes o) -> no_double_zero (dec_sizes o) -> 0 < latent_dim o -> vsaveToFile cfg_bytes o true = (true, f) ->
  exists w, vloadFromFile expf tanhf cfg_bytes cfg_of v f alloc i1 i2 i3 = Ret (true, w) /\ (input_dim w, latent_dim w, hidden w, vcf w) = (input_dim o, latent_dim o, hidden o, vcf o) /\
    (self w, vlevel w, own w, vmetrics w) = (self v, vlevel v, own v, vmetrics v).
Proof.
  intros v o alloc i1 i2 i3 f HR HO F1 F2 F3 F4 HA D1 D2 D3 HS. pose proof (reachable_VI _ _ _ _ _ _ HR) as HV.
  destruct (load_works expf tanhf cfg_bytes cfg_of v o alloc i1 i2 i3 f HV fixed_size read_back F1 F2 F3 F4 HA D1 D2 D3 HS) as (w & E & A & B & _). exists w. auto.
Qed.
Theorem C333_weights_refuted : forall v o o' alloc i1 i2 i3 f f', reach v -> (input_dim o, latent_dim o, hidden o, vcf o) = (input_dim o', latent_dim o', hidden o', vcf o') ->
  vsaveToFile cfg_bytes o true = (true, f) -> vsaveToFile cfg_bytes o' true = (true, f') ->
  f = f' /\ vloadFromFile expf tanhf cfg_bytes cfg_of v f alloc i1 i2 i3 = vloadFromFile expf tanhf cfg_bytes cfg_of v f' alloc i1 i2 i3.
Proof.
  intros v o o' alloc i1 i2 i3 f f' _ E S1 S2. assert (EF : f = f'); [|subst; auto]. unfold vsaveToFile, dims_bytes in S1, S2.
  assert (E1 : input_dim o = input_dim o') by congruence. assert (E2 : latent_dim o = latent_dim o') by congruence. assert (E3 : hidden o = hidden o') by congruence. assert (E4 : vcf o = vcf o') by congruence. rewrite E1, E2, E3, E4 in S1. congruence.
Qed.
(* an object that has loaded another object's file releases that object's string *)
Theorem C334_destroy_refuted : forall v o alloc i1 i2 i3 f w, reach v -> reach o -> self v <> self o -> fits (input_dim o) -> fits (latent_dim o) -> fits (length (hidden o)) -> Forall fits (hidden o) -> alloc (8 * N.of_nat (length (hidden o)))%N = true ->
  vsaveToFile cfg_bytes o true = (true, f) -> vloadFromFile expf tanhf cfg_bytes cfg_of v f alloc i1 i2 i3 = Ret (true, w) -> destroy w = UB UB_bad_free.
Proof.
  intros v o alloc i1 i2 i3 f w HR HO Ne F1 F2 F3 F4 HA HS EW. pose proof (v_dir _ _ _ (reachable_VI _ _ _ _ _ _ HO)) as DO. rewrite (load_saved expf tanhf cfg_bytes cfg_of v o alloc i1 i2 i3 f fixed_size read_back F1 F2 F3 F4 HA HS) in EW.
  destruct (initializeEncoder _ _ _ _ _) as [e|?|?|]; try discriminate EW. cbn [obind] in EW. destruct (initializeDecoder _ _ _ _ _ _) as [d|?|?|]; try discriminate EW. cbn [obind] in EW. destruct (initializeInterpolator _ _ _ _ _) as [i|?|?|]; try discriminate EW. cbn [obind] in EW.
  injection EW as <-. unfold destroy. cbn [vcf self]. rewrite DO. destruct (N.eqb_spec (self o) (self v)); [congruence|reflexivity].
Qed.
Theorem C334_destroy_partial : forall v, reach v -> destroy v = Ret tt /\ (forall a, destroy (vae_copy a v) = Ret tt).
Proof.
  intros v HR. pose proof (v_dir _ _ _ (reachable_VI _ _ _ _ _ _ HR)) as D. unfold destroy. rewrite D, N.eqb_refl. split; [reflexivity|]. intros a. cbn. rewrite N.eqb_refl. reflexivity.
Qed.
Theorem C335_truncated_refuted : forall v b alloc i1 i2 i3, length b < 24 -> vloadFromFile expf tanhf cfg_bytes cfg_of v (Some b) alloc i1 i2 i3 = UB UB_uninit.
Proof. intros. apply load_short. assumption. Qed.
(* the load reports failure and the object is left with the file's dimensions and its old networks; encoding is then undefined *)
Theorem C335_failed_load_refuted : forall v inp lat count rest alloc i1 i2 i3, reach v -> fits inp -> fits lat -> (count < 2 ^ 64)%N -> alloc (8 * count)%N = false ->
  exists w, vloadFromFile expf tanhf cfg_bytes cfg_of v (Some (le 8 (N.of_nat inp) ++ le 8 (N.of_nat lat) ++ le 8 count ++ rest)) alloc i1 i2 i3 = Ret (false, w) /\ getInputDim w = inp /\ getLatentDim w = lat /\
    (latent_dim v < lat -> forall x rad d, length x = input_dim v -> encode logf w x rad d = UB UB_array_index).
Proof.
  intros v inp lat count rest alloc i1 i2 i3 HR F1 F2 F3 HA. eexists. split; [apply load_refused; assumption|]. split; [reflexivity|]. split; [reflexivity|]. intros L x rad d Lx.
  apply (encode_mixed expf logf tanhf); [exact (reachable_VI _ _ _ _ _ _ HR)|exact Lx|exact L].
Qed.
Theorem C335_unopened_partial : forall v alloc i1 i2 i3, vloadFromFile expf tanhf cfg_bytes cfg_of v None alloc i1 i2 i3 = Ret (false, v).
Proof. reflexivity. Qed.
End F.
(** ** C336: more latent than input dimensions *)
Theorem C336_narrow_refuted : forall fuel v data epochs batch idx q, reach v -> data <> [] -> (N.of_nat (length data) < 2 ^ 63)%N -> length data < fuel -> all_of (input_dim v) data ->
  (forall e, shuffle (length data) (idx e)) -> c_interp (vcf v) = true -> input_dim v < latent_dim v -> (0 < batch < 2 ^ 31)%Z -> (0 < epochs)%Z ->
  vtrain expf logf gauss pgauss fuel v data epochs batch idx q = UB UB_array_index.
Proof.
  intros. apply (vtrain_narrow expf logf tanhf); try assumption; [exact (reachable_VI _ _ _ _ _ _ H)|lia| |].
  - destruct (Z.eqb_spec batch (-1)); [lia|]. rewrite Z.mod_small; lia.
  - destruct (Z.eqb_spec epochs (-1)); lia.
Qed.
Theorem C336_train_partial : forall fuel v data epochs batch idx q, reach v -> (N.of_nat (length data) < 2 ^ 63)%N -> length data < fuel -> all_of (input_dim v) data ->
  (forall e, shuffle (length data) (idx e)) -> c_interp (vcf v) = false \/ latent_dim v <= input_dim v -> (0 < batch < 2 ^ 31)%Z ->
  exists loss w, vtrain expf logf gauss pgauss fuel v data epochs batch idx q = Ret (loss, w).
Proof.
  intros fuel v data epochs batch idx q HR Hn Hf HA HS HI Hb. destruct (vtrain_ok expf logf tanhf gauss pgauss fuel v data epochs batch idx q Hn Hf (reachable_VI _ _ _ _ _ _ HR) HA HS) as (w & E & _); [|apply size_of_int_pos|eexists _, _; exact E].
  - intros C. destruct HI as [D|D]; [congruence|exact D].
  - destruct (Z.eqb_spec batch (-1)); [lia|]. rewrite Z.mod_small; lia.
Qed.
(** ** C337: copies *)
Theorem C337_copy : forall v o a, reach v -> reach o ->
  same_answers (vae_copy a o) o /\ vcf (vae_copy a o) = owned (vcf o) a /\ vmetrics (vae_copy a o) = new_metrics /\ vgetErrorStats (vae_copy a o) = vgetErrorStats o /\
  same_answers (vae_assign v o) o /\ vcf (vae_assign v o) = owned (vcf o) (self v) /\ vmetrics (vae_assign v o) = vmetrics v /\ vgetErrorStats (vae_assign v o) = vgetErrorStats o /\
  (forall x rad d, length x = input_dim o -> exists m l w1 w2, encode logf o x rad d = Ret (m, l, w1) /\ encode logf (vae_copy a o) x rad d = Ret (m, l, w2)) /\
  (forall z rad d, length z = latent_dim o -> exists y w1 w2, decode expf o z rad d = Ret (y, w1) /\ decode expf (vae_copy a o) z rad d = Ret (y, w2)).
Proof.
  intros v o a HV HO. pose proof (reachable_VI _ _ _ _ _ _ HO) as VO. do 8 (split; [repeat split|]). split.
  - intros x rad d L. destruct (encode_ok expf logf tanhf o x rad d VO L) as (y & s' & E & Ly & _ & EE). eexists _, _, _, _. split; [exact EE|].
    unfold encode. cbn [vae_copy enc latent_dim]. rewrite E. cbn [obind fst snd]. unfold encode in EE. rewrite E in EE. cbn [obind fst snd] in EE. destruct (omap _ _) as [p|?|?|]; try discriminate EE. cbn [obind] in *. injection EE as E1 E2. rewrite E1, E2. reflexivity.
  - intros z rad d L. destruct (decode_ok expf tanhf o z rad d VO L) as (y & s' & E & Ly & _ & EE). eexists _, _, _. split; [exact EE|]. unfold decode. cbn [vae_copy dec]. rewrite E. reflexivity.
Qed.
(** ** C338: radiation; nothing else changes the weights *)
Theorem C338_radiation : forall v rad w1 w2 w3 b1 b2 b3 w, reach v -> vapplyRadiationEffects v rad w1 w2 w3 b1 b2 b3 = Ret w ->
  (input_dim w, latent_dim w, hidden w, vlevel w, vcf w, vmetrics w, own w) = (input_dim v, latent_dim v, hidden v, vlevel v, vcf v, vmetrics v, own v) /\
  (fle rad (dofZ 0) = true -> weights_of w = weights_of v).
Proof.
  intros v rad w1 w2 w3 b1 b2 b3 w HR E. destruct (radiation_VI expf tanhf v rad w1 w2 w3 b1 b2 b3 w (reachable_VI _ _ _ _ _ _ HR) E) as (_ & F & C & O & M & E1 & E2 & E3).
  unfold fixed in F. injection F as F1 F2 F3 F4 F5. split; [congruence|]. intros L. unfold applyRadiationEffects in E1, E2, E3. rewrite L in E1, E2, E3. injection E1 as E1. injection E2 as E2. injection E3 as E3. unfold weights_of. rewrite <- E1, <- E2, <- E3. reflexivity.
Qed.
Theorem C338_nothing_else : forall v w ops, reach v -> Forall (fun o => match o with VRadiation _ _ _ _ _ _ _ => False | _ => True end) ops -> vrun expf logf gauss pgauss v ops = Ret w -> weights_of w = weights_of v.
Proof.
  intros v w ops HR F E. apply (run_weights expf logf tanhf gauss pgauss ops v w (reachable_VI _ _ _ _ _ _ HR) E). eapply Forall_impl; [|exact F]. intros o H. destruct o; cbn; tauto.
Qed.
(** ** C339: setConfig *)
Theorem C339_config : forall v c x z rad d, reach v -> let w := setConfig v c in
  vcf w = owned c (self v) /\ getLatentDim w = getLatentDim v /\ getInputDim w = getInputDim v /\ reach w /\
  (length x = input_dim v -> exists m l w', encode logf w x rad d = Ret (m, l, w') /\ length m = latent_dim v) /\
  (length z = latent_dim v -> exists y w', decode expf w z rad d = Ret (y, w') /\ length y = input_dim v).
Proof.
  intros v c x z rad d HR w. assert (HW : reach w).
  { destruct HR as (addr & inp & lat & hid & lv & c0 & i1 & i2 & i3 & v0 & ops & E0 & ER). exists addr, inp, lat, hid, lv, c0, i1, i2, i3, v0, (ops ++ [VConfig c]). split; [exact E0|].
    clear - ER. revert v0 ER. induction ops as [|o ops IH]; intros v0 ER; cbn [vrun app] in *; [injection ER as <-; reflexivity|]. destruct (vstep _ _ _ _ v0 o) as [v1|u|e|]; try discriminate ER. cbn [obind] in *. apply IH, ER. }
  split; [reflexivity|]. split; [reflexivity|]. split; [reflexivity|]. split; [exact HW|]. split; intros L.
  - destruct (proj1 (C317_encode w x rad d HW) L) as (m & l & w' & E & Lm & _). exists m, l, w'. auto.
  - destruct (decode_ok expf tanhf w z rad d (reachable_VI _ _ _ _ _ _ HW) L) as (y & s' & _ & Ly & _ & E). eexists _, _. split; [exact E|]. rewrite inv_logs_length. exact Ly.
Qed.
(** ** C340, C341: evaluation *)
Theorem C340_evaluate : forall v data r, reach v -> all_of (input_dim v) data -> exists w, vevaluate expf logf gauss pgauss v data r = Ret (mean_loss (fun i x => recon_loss expf logf gauss pgauss v x (r i)) data, w) /\
  weights_of w = weights_of v /\ vmetrics w = vmetrics v /\ (data = [] -> mean_loss (fun i x => recon_loss expf logf gauss pgauss v x (r i)) data = nan32).
Proof.
  intros v data r HR HA. pose proof (reachable_VI _ _ _ _ _ _ HR) as HV. destruct (evaluate_ok expf logf tanhf gauss pgauss v data r HV HA) as (w & E & Q & M). exists w. split; [exact E|].
  split; [exact (weights_mild _ _ (quiet_mild _ _ _ _ HV Q))|]. split; [exact M|]. intros ->. apply mean_empty.
Qed.
Theorem C341_comprehensive : forall v data r, reach v -> all_of (input_dim v) data -> exists w,
  evaluateComprehensive expf logf gauss pgauss v data r =
   Ret (mean_loss (fun i x => total_loss expf logf gauss pgauss v x (r i)) data, mean_loss (fun _ x => kl_loss expf logf v x) data, mean_loss (fun i x => recon_loss expf logf gauss pgauss v x (r i)) data, f32ofN (N.of_nat (latent_dim v)), c_beta (vcf v), w) /\
  weights_of w = weights_of v /\ vmetrics w = vmetrics v.
Proof.
  intros v data r HR HA. pose proof (reachable_VI _ _ _ _ _ _ HR) as HV. destruct (comprehensive_ok expf logf tanhf gauss pgauss v data r HV HA) as (w & E & Q & M). exists w. split; [exact E|].
  split; [exact (weights_mild _ _ (quiet_mild _ _ _ _ HV Q))|exact M].
Qed.
(** ** C342: after any history of calls the object still works *)
Theorem C342_usable : forall v x rad de dd r n, reach v ->
  (length x = input_dim v -> exists y w, vforward expf logf gauss pgauss v x rad de dd r n = Ret (y, w) /\ length y = input_dim v /\ weights_of w = weights_of v) /\
  (length x <> input_dim v -> vforward expf logf gauss pgauss v x rad de dd r n = Throw E_invalid_argument) /\
  (forall ops w, vrun expf logf gauss pgauss v ops = Ret w -> (input_dim w, latent_dim w, hidden w, vlevel w) = (input_dim v, latent_dim v, hidden v, vlevel v) /\ reach w).
Proof.
  intros v x rad de dd r n HR. pose proof (reachable_VI _ _ _ _ _ _ HR) as HV. split.
  - intros L. destruct (forward_ok expf logf tanhf gauss pgauss v x rad de dd r n HV L) as (y & w & E & Ly & M & _). exists y, w. split; [exact E|]. split; [exact Ly|exact (weights_mild _ _ M)].
  - split; [intros L; exact (forward_wrong expf logf tanhf gauss pgauss v x rad de dd r n HV L)|]. intros ops w E. destruct (run_VI expf logf tanhf gauss pgauss ops v w HV E) as [_ F]. unfold fixed in F. injection F as F1 F2 F3 F4 F5. split; [congruence|].
    destruct HR as (addr & inp & lat & hid & lv & c & i1 & i2 & i3 & v0 & ops0 & E0 & ER). exists addr, inp, lat, hid, lv, c, i1, i2, i3, v0, (ops0 ++ ops). split; [exact E0|].
    clear - ER E. revert v0 ER. induction ops0 as [|o ops0 IH]; intros v0 ER; cbn [vrun app] in *; [injection ER as <-; exact E|]. destruct (vstep _ _ _ _ v0 o) as [v1|u|e|]; try discriminate ER. cbn [obind] in *. apply IH, ER.
Qed.
End P.

(** ** the hypotheses can be met *)
Local Notation reach0 := (vreachable toy_exp idf idf no_gauss mean_gauss).
Definition id_shuffle (n : nat) : shuffle n (seq 0 n) := Permutation_refl (seq 0 n).
Example C317_nonvacuous : exists v, reach0 v /\ length [f_one; nan32] = input_dim v /\ latent_dim v = 1.
Proof. destruct (ex_vae cfg0 FULL_TMR) as (v & H & E). exists v. injection E as E1 E2 E3 E4 E5. rewrite E1, E2. auto. Qed.
Example C318_nonvacuous : exists v, reach0 v /\ calm v (dlit 1 10) /\ length [f_one; f_two] = input_dim v /\ length [f_one] = latent_dim v.
Proof. destruct (ex_vae cfg0 FULL_TMR) as (v & H & E). exists v. injection E as E1 E2 E3 E4 E5. rewrite E1, E2. split; [exact H|]. split; [right; vm_compute; reflexivity|auto]. Qed.
Example C319_nonvacuous : exp_ok toy_exp /\ exists v, reach0 v /\ still v (dlit 5 100) /\ length [f_ten; f_ten] = input_dim v /\ finite32 f_ten /\ (2 <= R (sf32 f_ten))%R /\ length [f_ten] = latent_dim v.
Proof.
  split; [exact toy_ok|]. destruct (ex_vae cfg0 FULL_TMR) as (v & H & E). exists v. injection E as E1 E2 E3 E4 E5. rewrite E1, E2. split; [exact H|].
  split; [split; [right; vm_compute; reflexivity|vm_compute; reflexivity]|]. destruct c_ten as [O T]. split; [reflexivity|]. split; [exact O|]. split; [lra|reflexivity].
Qed.
Example C320_nonvacuous : exists v, reach0 v /\ latent_dim v <= length [f_one] /\ latent_dim v > length (@nil N) /\ (5 mod 2 ^ 32 = (5 + 2 ^ 32) mod 2 ^ 32)%N.
Proof. destruct (ex_vae cfg0 FULL_TMR) as (v & H & E). exists v. injection E as E1 E2 E3 E4 E5. rewrite E2. split; [exact H|]. cbn [length]. split; [lia|]. split; [lia|reflexivity]. Qed.
Example C321_nonvacuous : fgt (dlit 3 10) (dlit 5 10) = false /\ fgt (dlit 3 10) (dlit 1 10) = true /\ fgt (dlit 6 10) (dlit 5 10) = true /\ fgt (dlit 6 10) (dlit 1 10) = true /\ finite32 f_ten /\ (Rabs (R (sf32 f_ten)) < Raux.bpow Zaux.radix2 127)%R.
Proof.
  split; [vm_compute; reflexivity|]. split; [vm_compute; reflexivity|]. split; [vm_compute; reflexivity|]. split; [vm_compute; reflexivity|]. destruct c_ten as [O T]. split; [exact O|]. rewrite T, Rabs_pos_eq by lra.
  apply Rlt_le_trans with (Raux.bpow Zaux.radix2 4); [change (Raux.bpow Zaux.radix2 4) with 16%R; lra|apply Raux.bpow_le; lia].
Qed.
Lemma plain_one : plain f_one. Proof. split; [reflexivity|]. split; [exact (proj1 c_one)|vm_compute; discriminate]. Qed.
Example C322_nonvacuous : exists v, reach0 v /\ calm v (dlit 1 10) /\ c_interp (vcf v) = false /\ length [f_one] = latent_dim v /\ Forall plain [f_one] /\ Forall finite32 [f_one] /\ idf (S754_zero false) = S754_zero false.
Proof.
  destruct (ex_vae cfg0 FULL_TMR) as (v & H & E). exists v. injection E as E1 E2 E3 E4 E5. rewrite E2, E4. split; [exact H|]. split; [right; vm_compute; reflexivity|]. split; [reflexivity|]. split; [reflexivity|].
  split; [constructor; [exact plain_one|constructor]|]. split; [constructor; [exact (proj1 c_one)|constructor]|reflexivity].
Qed.
Example C323_nonvacuous : exists v, reach0 v /\ calm v (S754_zero false) /\ 3 < 5.
Proof. destruct (ex_vae cfg0 ADAPTIVE_TMR) as (v & H & E). exists v. split; [exact H|]. split; [apply calm0|lia]. Qed.
Definition data2 : list (list N) := [[f_one; f_two]; [f_half; f_ten]].
Example C324_nonvacuous : exists v r w, reach0 v /\ vtrain toy_exp idf no_gauss mean_gauss 5 v data2 3 1 (fun _ => seq 0 2) (fun _ _ => mkTD 1 2 3 4) = Ret (r, w).
Proof.
  destruct (ex_vae cfg0 FULL_TMR) as (v & H & E). injection E as E1 E2 E3 E4 E5.
  destruct (C336_train_partial toy_exp idf idf no_gauss mean_gauss 5 v data2 3 1 (fun _ => seq 0 2) (fun _ _ => mkTD 1 2 3 4) H) as (r & w & EE); [reflexivity|cbn; lia|rewrite E1; repeat constructor|intros e; apply id_shuffle|right; lia|lia|]. exists v, r, w. auto.
Qed.
Example C325_nonvacuous : exists v, reach0 v /\ all_of (input_dim v) data2 /\ (forall e : nat, shuffle (length data2) (seq 0 2)) /\ latent_dim v <= input_dim v /\ (0 < size_of_int 2)%N /\ (length data2 mod 2 =? 0) = true.
Proof. destruct (ex_vae cfg1 FULL_TMR) as (v & H & E). exists v. injection E as E1 E2 E3 E4 E5. rewrite E1, E2. split; [exact H|]. split; [repeat constructor|]. split; [intros; apply id_shuffle|]. split; [lia|]. split; reflexivity. Qed.
Example C326_nonvacuous : data2 <> [] /\ c_batch (mkVcfg 1 f_one false f_half 0 3 0 5 0 STANDARD 0) = 0%Z /\ (0 < c_epochs (mkVcfg 1 f_one false f_half 0 3 0 5 0 STANDARD 0))%Z.
Proof. split; [discriminate|]. cbn. lia. Qed.
Example C327_nonvacuous : (exists v, reach0 v /\ between 0 1 (c_split (vcf v))) /\ shuffle (length data2) (seq 0 2) /\ N.of_nat (length (repeat (@nil N) (N.to_nat 16777219))) = 16777219%N /\ is_nan32 nan32.
Proof.
  split.
  - destruct (ex_vae (mkVcfg 1 f_one false f_half 2 3 f_half 5 0 STANDARD 0) FULL_TMR) as (v & H & E). exists v. injection E as E1 E2 E3 E4 E5. rewrite E4. split; [exact H|]. split; [split; reflexivity|].
    cbn [c_split owned]. vm_compute (sf32 f_half). unfold R, BinarySingleNaN.SF2R, Defs.F2R. cbn [Defs.Fnum Defs.Fexp]. change (Raux.bpow Zaux.radix2 (-24)) with (/ 16777216)%R. cbn [SpecFloat.cond_Zopp]. lra.
  - split; [apply id_shuffle|]. split; [rewrite repeat_length; lia|reflexivity].
Qed.
Example C328_nonvacuous : createBatches 5 data2 1 = Ret [[[f_one; f_two]]; [[f_half; f_ten]]] /\ createBatches 5 data2 (-1) = Ret [data2].
Proof. split; vm_compute; reflexivity. Qed.
Example C329_nonvacuous : exists v, reach0 v /\ (0 < Z.abs (c_batch (vcf v)) < 2 ^ 31)%Z /\ all_of (input_dim v) data2 /\ splitTrainValidation v data2 (seq 0 2) = Ret ([[f_one; f_two]], [[f_half; f_ten]]) /\ 0 < Z.to_nat (c_epochs (vcf v)).
Proof. destruct (ex_vae cfg0 FULL_TMR) as (v & H & E). exists v. injection E as E1 E2 E3 E4 E5. unfold splitTrainValidation. rewrite E1, E4. split; [exact H|]. split; [cbn; lia|]. split; [repeat constructor|]. split; [vm_compute; reflexivity|cbn; lia]. Qed.
(* one sample and the default split of 0.2: nothing to train on *)
Example C330_nonvacuous : exists v m w, reach0 v /\ splitTrainValidation v [[f_one; f_two]] [0] = Ret ([], [[f_one; f_two]]) /\
  trainProduction toy_exp idf no_gauss mean_gauss 5 v [[f_one; f_two]] [] [0] (fun _ _ _ => 0%N) (fun _ _ => 0%N) = Ret (m, w) /\ train_losses m = [nan32; nan32; nan32].
Proof.
  destruct (ex_vae (mkVcfg 1 f_one false f_half 2 3 1045220557 5 0 STANDARD 0) NONE_) as (v & H & E). injection E as E1 E2 E3 E4 E5.
  assert (SP : splitTrainValidation v [[f_one; f_two]] [0] = Ret ([], [[f_one; f_two]])) by (unfold splitTrainValidation; rewrite E4; vm_compute; reflexivity).
  destruct (C329_early_stopping toy_exp idf idf no_gauss mean_gauss 5 v [[f_one; f_two]] [] [0] (fun _ _ _ => 0%N) (fun _ _ => 0%N) [] [[f_one; f_two]] H) as (m & w & k & EE & _ & Hk & H0 & TR & TO & HD);
    [reflexivity|cbn; lia|rewrite E4; cbn; lia|constructor|rewrite E1; repeat constructor|left; auto|].
  exists v, m, w. split; [exact H|]. split; [exact SP|]. split; [exact EE|]. destruct (proj2 (C330_empty_refuted toy_exp idf no_gauss mean_gauss v [] _ _ _ m k TR TO) eq_refl) as [-> _].
  rewrite E4 in Hk, HD. cbn in Hk, HD. destruct HD as [->|P]; [reflexivity|]. exfalso. destruct (t_epoch _ _ _ TR) as [(_ & _ & X)|(j & _ & _ & X)]; lia.
Qed.
Example C331_nonvacuous : exists v w, reach0 v /\ still v (dlit 5 100) /\ vapplyRadiationEffects v (dofZ 0) [] [] [] [] [] [] = Ret w.
Proof. destruct (ex_vae cfg0 FULL_TMR) as (v & H & E). eexists v, _. split; [exact H|]. split; [split; [right; vm_compute; reflexivity|vm_compute; reflexivity]|]. unfold vapplyRadiationEffects, applyRadiationEffects. assert (Z : fle (dofZ 0) (dofZ 0) = true) by (vm_compute; reflexivity). rewrite Z. cbn [obind]. reflexivity. Qed.
(* options written as a fixed number of cells and read back *)
Definition zn (z : Z) : N := Z.to_N (if (z <? 0)%Z then -2 * z - 1 else 2 * z).
Definition nz (n : N) : Z := if N.even n then Z.of_N (n / 2) else (- Z.of_N (n / 2) - 1)%Z.
Lemma nz_zn z : nz (zn z) = z.
Proof.
  unfold nz, zn. destruct (Z.ltb_spec z 0) as [H|H].
  - replace (Z.to_N (-2 * z - 1)) with (2 * Z.to_N (- z - 1) + 1)%N by lia. rewrite N.even_add, N.even_mul. cbn [N.even negb orb Bool.eqb]. rewrite <- (N.div_unique (2 * Z.to_N (- z - 1) + 1) 2 (Z.to_N (- z - 1)) 1) by lia. lia.
  - replace (Z.to_N (2 * z)) with (2 * Z.to_N z)%N by lia. rewrite N.even_mul. cbn [N.even orb]. rewrite N.mul_comm, N.div_mul by lia. lia.
Qed.
Definition cells (c : vcfg) : list N := [c_latent c; c_beta c; (if c_interp c then 1 else 0); c_weight c; zn (c_batch c); zn (c_epochs c); c_split c; zn (c_patience c); c_delta c; match c_sampling c with STANDARD => 0 | REPARAMETERIZED => 1 | IMPORTANCE => 2 | ADVERSARIAL => 3 end; c_dir c]%N.
Definition of_cells (l : list N) : vcfg := mkVcfg (nth 0 l 0%N) (nth 1 l 0%N) (nth 2 l 0 =? 1)%N (nth 3 l 0%N) (nz (nth 4 l 0%N)) (nz (nth 5 l 0%N)) (nth 6 l 0%N) (nz (nth 7 l 0%N)) (nth 8 l 0%N)
  (match nth 9 l 0%N with 0%N => STANDARD | 1%N => REPARAMETERIZED | 2%N => IMPORTANCE | _ => ADVERSARIAL end) (nth 10 l 0%N).
Example C333_coding : (forall a b, length (cells a) = length (cells b)) /\ (forall c, of_cells (cells c) = c).
Proof. split; [reflexivity|]. intros [a b i w ba ep sp pa de sa di]. unfold of_cells, cells. cbn [nth c_latent c_beta c_interp c_weight c_batch c_epochs c_split c_patience c_delta c_sampling c_dir]. rewrite !nz_zn. destruct i, sa; reflexivity. Qed.
Example C333_nonvacuous : exists v o f, reach0 v /\ reach0 o /\ self v <> self o /\ vsaveToFile cells o true = (true, f) /\ fits (input_dim o) /\ Forall fits (hidden o) /\ no_double_zero (enc_sizes o) /\ no_double_zero (dec_sizes o) /\ 0 < latent_dim o.
Proof.
  destruct (built toy_exp idf idf no_gauss mean_gauss 7 2 1 [3] FULL_TMR cfg0 init0 init0 init0) as (v & _ & H & E); [cbn; lia|cbn; lia|lia|].
  destruct (built toy_exp idf idf no_gauss mean_gauss 8 2 1 [3] FULL_TMR cfg0 init0 init0 init0) as (o & _ & H' & E'); [cbn; lia|cbn; lia|lia|].
  injection E as E1 E2 E3 E4 E5 E6. injection E' as F1 F2 F3 F4 F5 F6. exists v, o. eexists. split; [exact H|]. split; [exact H'|]. split; [congruence|]. split; [reflexivity|]. unfold enc_sizes, dec_sizes. rewrite F1, F2, F3.
  split; [unfold fits; cbn; lia|]. split; [repeat constructor; unfold fits; cbn; lia|]. cbn. lia.
Qed.
Example C336_nonvacuous : exists v, reach0 v /\ c_interp (vcf v) = true /\ input_dim v < latent_dim v /\ all_of (input_dim v) [[f_one]].
Proof.
  destruct (built toy_exp idf idf no_gauss mean_gauss 7 1 2 [3] FULL_TMR cfg1 init0 init0 init0) as (v & _ & H & E); [cbn; lia|cbn; lia|lia|]. injection E as E1 E2 E3 E4 E5 E6.
  exists v. rewrite E1, E2, E5. split; [exact H|]. split; [reflexivity|]. split; [lia|repeat constructor].
Qed.
Example C340_nonvacuous : exists v, reach0 v /\ all_of (input_dim v) data2.
Proof. destruct (ex_vae cfg0 FULL_TMR) as (v & H & E). exists v. injection E as E1 E2 E3 E4 E5. rewrite E1. split; [exact H|repeat constructor]. Qed.
Print Assumptions C317_encode.
Print Assumptions C318_deterministic.
Print Assumptions C319_range_partial.
Print Assumptions C319_reconstruction_refuted.
Print Assumptions C320_sample.
Print Assumptions C320_seeds.
Print Assumptions C321_protect_partial.
Print Assumptions C321_protect_refuted.
Print Assumptions C322_linear_partial.
Print Assumptions C322_sizes_partial.
Print Assumptions C322_network_refuted.
Print Assumptions C323_generate.
Print Assumptions C324_training_refuted.
Print Assumptions C325_train_partial.
Print Assumptions C325_divisor_refuted.
Print Assumptions C326_zero_batch_refuted.
Print Assumptions C327_partition_partial.
Print Assumptions C327_split_partial.
Print Assumptions C327_split_refuted.
Print Assumptions C328_batches.
Print Assumptions C329_early_stopping.
Print Assumptions C330_empty_refuted.
Print Assumptions C330_when_partial.
Print Assumptions C331_stats.
Print Assumptions C332_load_refuted.
Print Assumptions C332_load_partial.
Print Assumptions C333_file_partial.
Print Assumptions C333_weights_refuted.
Print Assumptions C334_destroy_refuted.
Print Assumptions C334_destroy_partial.
Print Assumptions C335_truncated_refuted.
Print Assumptions C335_failed_load_refuted.
Print Assumptions C335_unopened_partial.
Print Assumptions C336_narrow_refuted.
Print Assumptions C336_train_partial.
Print Assumptions C337_copy.
Print Assumptions C338_radiation.
Print Assumptions C338_nothing_else.
Print Assumptions C339_config.
Print Assumptions C340_evaluate.
Print Assumptions C341_comprehensive.
Print Assumptions C342_usable.
