(** The autoencoder: interpolation, the loss train() returns. *)
From Coq Require Import List NArith ZArith Bool Arith Lia SpecFloat Permutation.
Import ListNotations.
From Verif Require Import Outcome Words Arith Floats Bits_Model MBP_Model PNN_Model PNN_Spec PNN_Proofs PNN2_Proofs PNN3_Proofs PNN4_Proofs PNN5_Proofs Residual_Model Vae_Model Vae_Spec Vae_Proofs Vae2_Proofs Vae3_Proofs Vae4_Proofs Vae5_Proofs.
Local Open Scope nat_scope.
Local Open Scope outcome_scope.
Lemma nth_error_index {A} (l : list A) : forall j i, nth_error (index j l) i = option_map (fun x => (j + i, x)) (nth_error l i).
Proof.
  induction l as [|x l IH]; intros j i; [destruct i; reflexivity|]. cbn [index]. destruct i as [|i]; cbn [nth_error]; [cbn; rewrite Nat.add_0_r; reflexivity|].
  rewrite IH. destruct (nth_error l i); [|reflexivity]. cbn [option_map]. do 2 f_equal. lia.
Qed.
Lemma index_length {A} (l : list A) : forall j, length (index j l) = length l. Proof. induction l; intros j; cbn; auto. Qed.

Section V.
Variables (expf logf tanhf : sf -> sf) (gauss : N -> nat -> N) (pgauss : N -> nat -> N -> N -> N).
Local Notation VI := (VInv expf tanhf).
Local Notation zero := (S754_zero false).
Local Notation Total := (total_loss expf logf gauss pgauss).
Local Notation Legacy := (legacy_loss expf logf gauss pgauss).

Lemma omap_blend alpha n a b : n <= length a -> n <= length b -> omap (fun i => x <- at_ a i ;; y <- at_ b i ;; Ret (blend alpha x y)) (seq 0 n) = Ret (blended alpha n a b).
Proof. intros H1 H2. apply omap_ok. intros i Hi. apply in_seq in Hi. rewrite (at_ok a i 0%N) by lia. cbn [obind]. rewrite (at_ok b i 0%N) by lia. reflexivity. Qed.
Lemma blended_length alpha n a b : length (blended alpha n a b) = n. Proof. unfold blended. rewrite map_length, seq_length. reflexivity. Qed.
Lemma interpolate_calm v z1 z2 alpha rad di dd : VI v -> calm v rad -> length z1 = latent_dim v -> length z2 = latent_dim v ->
  exists w, interpolate expf v z1 z2 alpha rad di dd = Ret (interpolated expf v z1 z2 alpha, w) /\ loud v w.
Proof.
  intros HV HC H1 H2. unfold interpolate, interpolated. destruct (c_interp (vcf v)).
  - destruct (net_forward_quiet _ _ _ _ _ (z1 ++ z2) rad di (v_itp _ _ v HV) HC) as (s & E & C & L). { cbn [itp_sizes hd]. rewrite app_length. lia. }
    change (last (itp_sizes v) 0) with (latent_dim v) in L. rewrite E. cbn [obind fst snd]. rewrite omap_blend by lia. cbn [obind].
    pose proof (quiet_itp v s C) as Q1. rewrite L. set (y := network _ _ (z1 ++ z2)).
    destruct (decode_quiet expf tanhf (with_itp v s) (blended alpha (latent_dim v) z1 y) rad dd (VI_quiet _ _ _ _ Q1 HV)) as (s2 & C2 & _ & E2).
    { destruct HC as [HC|HC]; [left; exact HC|right; exact HC]. } { rewrite blended_length. reflexivity. }
    rewrite E2, (decoded_quiet _ _ _ _ Q1). eexists. split; [reflexivity|]. split; [|reflexivity]. eapply quiet_trans; [exact Q1|apply quiet_dec, C2].
  - rewrite omap_blend by lia. cbn [obind].
    destruct (decode_quiet expf tanhf v (blended alpha (latent_dim v) z1 z2) rad dd HV HC) as (s2 & C2 & _ & E2); [apply blended_length|].
    rewrite E2. eexists. split; [reflexivity|]. split; [apply quiet_dec, C2|reflexivity].
Qed.
Lemma interpolate_ok v z1 z2 alpha rad di dd : VI v -> length z1 = latent_dim v -> length z2 = latent_dim v ->
  exists y w, interpolate expf v z1 z2 alpha rad di dd = Ret (y, w) /\ length y = input_dim v.
Proof.
  intros HV H1 H2. assert (G : exists y w, interpolate expf v z1 z2 alpha rad di dd = Ret (y, w)).
  { unfold interpolate. destruct (c_interp (vcf v)).
    - destruct (net_forward _ _ _ _ _ (z1 ++ z2) rad di (v_itp _ _ v HV)) as (y & s & E & C & L). { cbn [itp_sizes hd]. rewrite app_length. lia. }
      change (last (itp_sizes v) 0) with (latent_dim v) in L. rewrite E. cbn [obind fst snd]. rewrite omap_blend by lia. cbn [obind]. rewrite L.
      destruct (decode_ok expf tanhf (with_itp v s) (blended alpha (latent_dim v) z1 y) rad dd) as (y2 & s2 & _ & _ & _ & E2); [|apply blended_length|rewrite E2; eauto].
      eapply VI_mild; [|exact HV]. eapply mild_itp; eassumption.
    - rewrite omap_blend by lia. cbn [obind]. destruct (decode_ok expf tanhf v (blended alpha (latent_dim v) z1 z2) rad dd HV) as (y2 & s2 & _ & _ & _ & E2); [apply blended_length|rewrite E2; eauto]. }
  destruct G as (y & w & E). exists y, w. split; [exact E|]. destruct (interpolate_mild _ _ _ _ _ _ _ _ _ _ _ HV E) as (_ & L & _). exact L.
Qed.
Lemma interpolate_short v z1 z2 alpha rad di dd : VI v -> c_interp (vcf v) = false -> length z1 < latent_dim v \/ length z2 < latent_dim v ->
  interpolate expf v z1 z2 alpha rad di dd = UB UB_array_index.
Proof.
  intros HV E H. unfold interpolate. rewrite E. rewrite (omap_ub _ _ UB_array_index); [reflexivity| |].
  - exists (Nat.min (length z1) (length z2)). split; [apply in_seq; lia|]. destruct (Nat.le_gt_cases (length z1) (length z2)).
    + rewrite at_ub by lia. reflexivity.
    + rewrite (at_ok z1 _ 0%N) by lia. cbn [obind]. rewrite at_ub by lia. reflexivity.
  - intros i _. destruct (at_case z1 i) as [(a & -> & _)|[-> _]]; [|right; reflexivity]. cbn [obind].
    destruct (at_case z2 i) as [(b & -> & _)|[-> _]]; [left|right; reflexivity]. cbn [obind]. eauto.
Qed.
Lemma interpolate_wrong v z1 z2 alpha rad di dd : VI v -> c_interp (vcf v) = true -> length z1 + length z2 <> 2 * latent_dim v ->
  interpolate expf v z1 z2 alpha rad di dd = Throw E_invalid_argument.
Proof.
  intros HV E H. unfold interpolate. rewrite E. rewrite (net_forward_wrong _ _ _ _ _ _ rad di (v_itp _ _ v HV)); [reflexivity|]. cbn [itp_sizes hd]. rewrite app_length. exact H.
Qed.

(** ** the loss of a sample *)
Lemma midpoint_ok v z1 z2 y : length z1 = latent_dim v -> length z2 = latent_dim v -> latent_dim v <= length y -> computeInterpolationLoss v z1 z2 y = Ret (midpoint_loss (latent_dim v) z1 z2 y).
Proof.
  intros H1 H2 H3. unfold computeInterpolationLoss, midpoint_loss. erewrite ofold_ret_fold; [cbn [obind]; reflexivity|]. intros s i Hi. apply in_seq in Hi.
  rewrite (at_ok z1 i 0%N) by lia. cbn [obind]. rewrite (at_ok z2 i 0%N) by lia. cbn [obind]. rewrite (at_ok y i 0%N) by lia. reflexivity.
Qed.
Lemma ofold_ub {A B} (f : B -> A -> outcome B) u l1 x l2 : (forall b y, In y l1 -> exists b', f b y = Ret b') -> (forall b, f b x = UB u) -> forall b, ofold f (l1 ++ x :: l2) b = UB u.
Proof.
  intros H1 H2. induction l1 as [|y l1 IH]; intros b; cbn [app ofold]; [rewrite H2; reflexivity|]. destruct (H1 b y (or_introl eq_refl)) as [b' E]. rewrite E. cbn [obind].
  apply IH. intros; apply H1; right; assumption.
Qed.
Lemma midpoint_ub v z1 z2 y : length z1 = latent_dim v -> length z2 = latent_dim v -> length y < latent_dim v -> computeInterpolationLoss v z1 z2 y = UB UB_array_index.
Proof.
  intros H1 H2 H3. unfold computeInterpolationLoss. replace (latent_dim v) with (length y + S (latent_dim v - length y - 1)) at 1 by lia. rewrite seq_app. cbn [seq].
  rewrite (ofold_ub _ UB_array_index); [reflexivity| |].
  - intros s i Hi. apply in_seq in Hi. rewrite (at_ok z1 i 0%N) by lia. cbn [obind]. rewrite (at_ok z2 i 0%N) by lia. cbn [obind]. rewrite (at_ok y i 0%N) by lia. cbn [obind]. eauto.
  - intros s. rewrite (at_ok z1 _ 0%N) by lia. cbn [obind]. rewrite (at_ok z2 _ 0%N) by lia. cbn [obind]. rewrite at_ub by lia. reflexivity.
Qed.
Lemma train_sample_ok v w0 x q : VI v -> loud v w0 -> length x = input_dim v -> (c_interp (vcf v) = true -> latent_dim v <= input_dim v) ->
  exists w, train_sample expf logf gauss pgauss w0 x q = Ret (Legacy v x q, w) /\ loud v w.
Proof.
  intros HV Q Hx HI. destruct (input_loud _ _ Q) as (D1 & D2 & D3). pose proof (VI_quiet _ _ _ _ (proj1 Q) HV) as HW.
  destruct (steps_ok expf logf tanhf gauss pgauss w0 x (t_r q) HW ltac:(congruence)) as (w1 & w2 & E1 & E2 & E3 & Q1 & Q2). unfold train_sample. rewrite E1. cbn [obind]. rewrite E2. cbn [obind]. rewrite E3. cbn [obind fst snd].
  pose proof (loud_trans _ _ _ Q Q2) as Q3. destruct (input_loud _ _ Q3) as (F1 & F2 & F3). rewrite (encoded_quiet logf _ _ _ (proj1 Q)). rewrite (recon_quiet expf logf gauss pgauss _ _ _ _ (proj1 Q)).
  destruct (encoded_lengths expf logf tanhf v x HV Hx) as [L1 L2]. pose proof (recon_length expf logf tanhf gauss pgauss v x (t_r q) HV) as L3.
  unfold vcalculateLoss. rewrite mse_ok by lia. cbn [obind]. rewrite kl_ok by lia. cbn [obind]. rewrite F3. unfold legacy_loss.
  destruct (c_interp (vcf v)) eqn:EI; [|exists w2; split; [rewrite F2; reflexivity|exact Q3]].
  rewrite (sample_quiet _ _ _ _ _ _ _ _ _ (proj1 Q3)). rewrite sample_ok by lia. cbn [obind]. rewrite (sample_quiet _ _ _ _ _ _ _ _ _ (proj1 Q3)). rewrite sample_ok by lia. cbn [obind].
  set (z1 := map _ _). set (z2 := map _ (seq 0 (latent_dim v))) at 1. assert (Z1 : length z1 = latent_dim v) by (unfold z1; rewrite map_length, seq_length; reflexivity).
  assert (Z2 : length z2 = latent_dim v) by (unfold z2; rewrite map_length, seq_length; reflexivity).
  destruct (interpolate_calm w2 z1 z2 f_half zero no_draws no_draws (VI_quiet _ _ _ _ (proj1 Q3) HV) (calm0 w2) ltac:(congruence) ltac:(congruence)) as (w3 & E4 & Q4). rewrite E4. cbn [obind fst snd].
  assert (I : interpolated expf w2 z1 z2 f_half = interpolated expf v z1 z2 f_half).
  { unfold interpolated. rewrite (decoded_quiet _ _ _ _ (proj1 Q3)), F2, F3. destruct Q3 as [[_ _ C _] _]. destruct (counted_params _ _ C) as [-> ->]. reflexivity. }
  rewrite I. assert (LI : latent_dim v <= length (interpolated expf v z1 z2 f_half)).
  { destruct (interpolate_calm v z1 z2 f_half zero no_draws no_draws HV (calm0 v) Z1 Z2) as (w4 & E5 & _). destruct (interpolate_mild _ _ _ _ _ _ _ _ _ _ _ HV E5) as (_ & L & _). rewrite L. apply HI. reflexivity. }
  rewrite midpoint_ok by (rewrite ?F2; assumption). cbn [obind]. rewrite F2. exists w3. split; [reflexivity|eapply loud_trans; eassumption].
Qed.
Lemma train_sample_ub v x q : VI v -> length x = input_dim v -> c_interp (vcf v) = true -> input_dim v < latent_dim v ->
  train_sample expf logf gauss pgauss v x q = UB UB_array_index.
Proof.
  intros HV Hx EI HI.
  destruct (steps_ok expf logf tanhf gauss pgauss v x (t_r q) HV Hx) as (w1 & w2 & E1 & E2 & E3 & Q1 & Q3). unfold train_sample. rewrite E1. cbn [obind]. rewrite E2. cbn [obind]. rewrite E3. cbn [obind fst snd].
  destruct (input_loud _ _ Q3) as (F1 & F2 & F3).
  destruct (encoded_lengths expf logf tanhf v x HV Hx) as [L1 L2]. pose proof (recon_length expf logf tanhf gauss pgauss v x (t_r q) HV) as L3.
  unfold vcalculateLoss. rewrite mse_ok by lia. cbn [obind]. rewrite kl_ok by lia. cbn [obind]. rewrite F3. rewrite EI.
  rewrite (sample_quiet _ _ _ _ _ _ _ _ _ (proj1 Q3)). rewrite sample_ok by lia. cbn [obind]. rewrite (sample_quiet _ _ _ _ _ _ _ _ _ (proj1 Q3)). rewrite sample_ok by lia. cbn [obind].
  set (z1 := map _ _). set (z2 := map _ (seq 0 (latent_dim v))). assert (Z1 : length z1 = latent_dim v) by (unfold z1; rewrite map_length, seq_length; reflexivity).
  assert (Z2 : length z2 = latent_dim v) by (unfold z2; rewrite map_length, seq_length; reflexivity).
  pose proof (VI_quiet _ _ _ _ (proj1 Q3) HV) as HW.
  destruct (interpolate_calm w2 z1 z2 f_half zero no_draws no_draws HW (calm0 w2) ltac:(congruence) ltac:(congruence)) as (w3 & E4 & Q4). rewrite E4. cbn [obind fst snd].
  destruct (interpolate_mild _ _ _ _ _ _ _ _ _ _ _ HW E4) as (_ & L & _). rewrite midpoint_ub; [reflexivity|congruence|congruence|]. rewrite L, F1, F2. exact HI.
Qed.

(** ** train() *)
Lemma train_range v data idx q k : VI v -> all_of (input_dim v) data -> shuffle (length data) idx -> (c_interp (vcf v) = true -> latent_dim v <= input_dim v) ->
  forall s a w0, loud v w0 -> s + k <= length data -> exists w,
  ofold (fun bv i => k <- at_ idx i ;; x <- at_ data k ;; r <- train_sample expf logf gauss pgauss (snd bv) x (q i) ;; Ret (f32add (fst bv) (fst r), snd r)) (seq s k) (a, w0) =
  Ret (fold_left (fun s p => f32add s (Legacy v (snd p) (q (fst p)))) (firstn k (skipn s (index 0 (map (fun i => nth i data []) idx)))) a, w) /\ loud v w.
Proof.
  intros HV HA HS HI. pose proof (shuffle_lt _ _ HS) as HL. assert (Li : length idx = length data) by (rewrite (Permutation_length HS); apply seq_length).
  induction k as [|k IH]; intros s a w0 Q Hk; cbn [seq ofold].
  - cbn [firstn fold_left]. eauto.
  - destruct (nth_error_ex idx s) as [j Ej]; [lia|]. unfold at_ at 1. rewrite Ej. cbn [obind]. assert (Hj : j < length data) by (rewrite Forall_forall in HL; apply HL; eapply nth_error_In; exact Ej).
    rewrite (at_ok data j [] Hj). cbn [obind fst snd]. assert (Hx : length (nth j data []) = input_dim v) by (unfold all_of in HA; rewrite Forall_forall in HA; apply HA, nth_In, Hj).
    destruct (train_sample_ok v w0 _ (q s) HV Q Hx HI) as (w1 & E1 & Q1). rewrite E1. cbn [obind fst snd]. destruct (IH (S s) (f32add a (Legacy v (nth j data []) (q s))) w1 Q1 ltac:(lia)) as (w & E & Q2).
    rewrite E. exists w. split; [|exact Q2]. do 2 f_equal.
    assert (EL : nth_error (index 0 (map (fun i => nth i data []) idx)) s = Some (s, nth j data [])) by (rewrite nth_error_index, nth_error_map, Ej; reflexivity).
    rewrite (skipn_cons _ _ _ EL). reflexivity.
Qed.
Lemma train_batches v data idx q rs : VI v -> all_of (input_dim v) data -> shuffle (length data) idx -> (c_interp (vcf v) = true -> latent_dim v <= input_dim v) ->
  Forall (fun p => fst p < snd p /\ snd p <= N.of_nat (length data))%N rs -> forall a w0, loud v w0 -> exists w,
  ofold (train_batch expf logf gauss pgauss data idx q) rs (a, w0) =
  Ret (fold_left (fun s b => f32add s (batch_mean (fun p => Legacy v (snd p) (q (fst p))) b)) (map (fun p => firstn (length (range p)) (skipn (N.to_nat (fst p)) (index 0 (map (fun i => nth i data []) idx)))) rs) a, w) /\ loud v w.
Proof.
  intros HV HA HS HI HF. assert (Li : length idx = length data) by (rewrite (Permutation_length HS); apply seq_length).
  induction HF as [|p rs F1 F2 IH]; intros a w0 Q; cbn [ofold map fold_left]; [eauto|].
  destruct (range_in p _ F1) as [R1 R2].
  destruct (train_range v data idx q (length (range p)) HV HA HS HI (N.to_nat (fst p)) 0%N w0 Q R2) as (w1 & E1 & Q1). rewrite <- R1 in E1.
  match type of E1 with _ = Ret (?t, _) => assert (ET : train_batch expf logf gauss pgauss data idx q (a, w0) p = Ret (f32add a (f32div t (f32ofN (snd p - fst p))), w1)) by (unfold train_batch; cbn [fst snd]; rewrite E1; reflexivity) end.
  rewrite ET. cbn [obind].
  destruct (IH (f32add a (batch_mean (fun p => Legacy v (snd p) (q (fst p))) (firstn (length (range p)) (skipn (N.to_nat (fst p)) (index 0 (map (fun i => nth i data []) idx)))))) w1 Q1) as (w & E & Q2).
  exists w. split; [|exact Q2]. rewrite <- E. do 3 f_equal. unfold batch_mean. do 2 f_equal. rewrite firstn_length, skipn_length, index_length, map_length.
  unfold range in *. rewrite seq_length in *. lia.
Qed.
Lemma train_epochs_ok fuel data bs idx q : (N.of_nat (length data) < 2 ^ 63)%N -> (0 < bs < 2 ^ 64)%N -> length data < fuel -> forall n v e total, VI v -> all_of (input_dim v) data ->
  (forall e, shuffle (length data) (idx e)) -> (c_interp (vcf v) = true -> latent_dim v <= input_dim v) ->
  exists w, train_epochs expf logf gauss pgauss fuel v data bs idx q e n total =
   Ret (match n with O => total | S k => mean_of_batches (fun p => Legacy v (snd p) (q (e + k) (fst p))) (N.of_nat (length data) / bs + 1) (cut (N.to_nat bs) (index 0 (map (fun i => nth i data []) (idx (e + k))))) end, w) /\ loud v w.
Proof.
  intros Hn Hb Hf. induction n as [|n IH]; intros v e total HV HA HS HI; cbn [train_epochs]; [exists v; split; [reflexivity|apply loud_refl]|].
  destruct (ranges_spec (length data) (N.to_nat bs) Hn ltac:(lia) ltac:(rewrite Nnat.N2Nat.id; lia) fuel 0 ltac:(lia) ltac:(auto)) as (rs & E & HM & HF).
  rewrite Nnat.N2Nat.id in E. change (N.of_nat 0) with 0%N in E. rewrite E. cbn [obind].
  destruct (train_batches v data (idx e) (q e) rs HV HA (HS e) HI HF 0%N v (loud_refl v)) as (w1 & E1 & Q1). rewrite E1. cbn [obind fst snd].
  assert (Li : length (index 0 (map (fun i => nth i data []) (idx e))) = length data) by (rewrite index_length, map_length, (Permutation_length (HS e)); apply seq_length).
  rewrite (HM _ _ Li). rewrite Nat.sub_0_r. cbn [skipn]. destruct (N.eqb_spec bs 0); [lia|]. destruct (input_loud _ _ Q1) as (D1 & D2 & D3).
  destruct (IH w1 (S e) (f32div (fold_left (fun s b => f32add s (batch_mean (fun p => Legacy v (snd p) (q e (fst p))) b)) (cut_ (length (index 0 (map (fun i => nth i data []) (idx e)))) (N.to_nat bs) (index 0 (map (fun i => nth i data []) (idx e)))) 0%N) (f32ofN (N.of_nat (length data) / bs + 1)))) as (w & E2 & Q2).
  { eapply VI_quiet; [exact (proj1 Q1)|exact HV]. } { rewrite D1; exact HA. } { exact HS. } { rewrite D1, D2, D3. exact HI. }
  exists w. split; [|eapply loud_trans; eassumption]. rewrite E2. do 2 f_equal. destruct n as [|k].
  - rewrite Nat.add_0_r. reflexivity.
  - replace (e + S k) with (S e + k) by lia. unfold mean_of_batches. f_equal. clear E2. generalize 0%N. induction (cut _ _) as [|b l IHl]; intros a; cbn [fold_left]; [reflexivity|].
    assert (EB : batch_mean (fun p => Legacy w1 (snd p) (q (S e + k) (fst p))) b = batch_mean (fun p => Legacy v (snd p) (q (S e + k) (fst p))) b).
    { unfold batch_mean. f_equal. generalize 0%N. clear - HV Q1. induction b as [|p b IHb]; intros s; cbn [fold_left]; [reflexivity|]. rewrite <- IHb. do 2 f_equal.
      destruct (losses_quiet expf logf gauss pgauss v w1 (snd p) (t_r (q (S e + k) (fst p))) (proj1 Q1)) as (_ & _ & ET). destruct (input_loud _ _ Q1) as (D1 & D2 & D3).
      unfold legacy_loss. rewrite ET, D2, D3, (encoded_quiet logf _ _ _ (proj1 Q1)). unfold interpolated. rewrite (decoded_quiet _ _ _ _ (proj1 Q1)), D2, D3.
      destruct Q1 as [[_ _ C _] _]. destruct (counted_params _ _ C) as [-> ->]. reflexivity. }
    rewrite EB. apply IHl.
Qed.
End V.
