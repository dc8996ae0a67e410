(** The autoencoder: the losses as functions, batches, the split. *)
From Coq Require Import List NArith ZArith Bool Arith Lia SpecFloat Permutation.
Import ListNotations.
From Verif Require Import Outcome Words Arith Floats Bits_Model MBP_Model PNN_Model PNN_Spec PNN_Proofs PNN2_Proofs PNN3_Proofs PNN4_Proofs PNN5_Proofs Residual_Model Vae_Model Vae_Spec Vae_Proofs Vae2_Proofs Vae3_Proofs.
Local Open Scope nat_scope.
Local Open Scope outcome_scope.

(** ** cutting a list *)
Lemma cut_concat {A} n : 0 < n -> forall f (l : list A), length l <= f -> concat (cut_ f n l) = l.
Proof.
  intros Hn f; induction f as [|f IH]; intros l Hl; [destruct l; [reflexivity|cbn in Hl; lia]|]. destruct l as [|a l]; [reflexivity|].
  cbn [cut_ concat]. rewrite IH; [apply firstn_skipn|]. rewrite skipn_length. cbn [length] in *. lia.
Qed.
Lemma cut_sizes {A} n : 0 < n -> forall f (l : list A), length l <= f -> Forall (fun b => 0 < length b <= n) (cut_ f n l).
Proof.
  intros Hn f; induction f as [|f IH]; intros l Hl; [constructor|]. destruct l as [|a l]; [constructor|]. cbn [cut_]. constructor.
  - rewrite firstn_length. cbn [length]. lia.
  - apply IH. rewrite skipn_length. cbn [length] in *. lia.
Qed.
Lemma cut_count {A} n : 0 < n -> forall f (l : list A), length l <= f -> length (cut_ f n l) = (length l + n - 1) / n.
Proof.
  intros Hn f; induction f as [|f IH]; intros l Hl.
  - destruct l; [|cbn in Hl; lia]. cbn [cut_ length]. symmetry. apply Nat.div_small. lia.
  - destruct l as [|a l]; [cbn [cut_ length]; symmetry; apply Nat.div_small; lia|]. cbn [cut_]. set (l' := a :: l) in *. assert (0 < length l') by (cbn; lia).
    cbn [length]. rewrite IH by (rewrite skipn_length; lia). rewrite skipn_length. destruct (Nat.le_gt_cases n (length l')) as [H1|H1].
    + replace (length l' + n - 1) with (length l' - n + n - 1 + 1 * n) by lia. rewrite Nat.div_add by lia. lia.
    + replace (length l' - n) with 0 by lia. rewrite Nat.div_small by lia. symmetry. replace (length l' + n - 1) with (length l' - 1 + 1 * n) by lia.
      rewrite Nat.div_add by lia. rewrite Nat.div_small by lia. reflexivity.
Qed.
Lemma cut_fuel {A} n : 0 < n -> forall f g (l : list A), length l <= f -> length l <= g -> cut_ f n l = cut_ g n l.
Proof.
  intros Hn f; induction f as [|f IH]; intros g l Hf Hg; destruct l as [|a l]; try (destruct g; reflexivity); try (cbn in Hf; lia).
  destruct g as [|g]; [cbn in Hg; lia|]. cbn [cut_]. f_equal. apply IH; rewrite skipn_length; cbn [length] in *; lia.
Qed.
Lemma omap_at {A} (l : list A) k s : s + k <= length l -> omap (at_ l) (seq s k) = Ret (firstn k (skipn s l)).
Proof.
  revert s; induction k as [|k IH]; intros s H; [reflexivity|]. cbn [seq omap].
  destruct (nth_error_ex l s) as [x Ex]; [lia|]. unfold at_ at 1. rewrite Ex. cbn [obind]. rewrite IH by lia. cbn [obind].
  rewrite (skipn_cons _ _ _ Ex). reflexivity.
Qed.

(** ** the ranges *)
Local Open Scope N_scope.
Lemma wrap_small n x : x < 2 ^ n -> wrap n x = x. Proof. intros H. unfold wrap. apply N.mod_small, H. Qed.
Lemma range_of (s e : nat) : range (N.of_nat s, N.of_nat e) = seq s (e - s).
Proof. unfold range. cbn [fst snd]. rewrite <- Nnat.Nat2N.inj_sub, !Nnat.Nat2N.id. reflexivity. Qed.
Lemma ranges_spec (n bs : nat) : N.of_nat n < 2 ^ 63 -> (0 < bs)%nat -> N.of_nat bs < 2 ^ 64 -> forall fuel (start : nat), (n - start < fuel)%nat -> (bs < n \/ start = 0 \/ n <= start)%nat ->
  exists rs, ranges fuel (N.of_nat n) (N.of_nat bs) (N.of_nat start) = Ret rs /\
    (forall A (l : list A), length l = n -> map (fun p => firstn (length (range p)) (skipn (N.to_nat (fst p)) l)) rs = cut_ (length l - start) bs (skipn start l)) /\
    Forall (fun p => fst p < snd p /\ snd p <= N.of_nat n) rs.
Proof.
  intros Hn Hb Hb'. induction fuel as [|fuel IH]; intros start Hf HD; [lia|]. cbn [ranges]. destruct (N.ltb_spec (N.of_nat start) (N.of_nat n)) as [L|L].
  - assert (W : wrap 64 (N.of_nat start + N.of_nat bs) = N.of_nat (start + bs)).
    { rewrite wrap_small; [rewrite Nnat.Nat2N.inj_add; reflexivity|]. destruct HD as [H|[H|H]]; [|subst start; exact Hb'|lia].
      change (2 ^ 64) with (2 ^ 63 + 2 ^ 63). lia. }
    rewrite W. destruct (IH (start + bs)%nat) as (rs & E & HM & HF); [lia| |].
    { destruct HD as [H|[H|H]]; [left; exact H| |lia]. destruct (Nat.lt_ge_cases bs n); [left; assumption|right; right; lia]. }
    rewrite E. cbn [obind]. eexists. split; [reflexivity|]. split.
    + intros A l Hl. cbn [map]. rewrite HM by exact Hl. cbn [fst]. rewrite Nnat.Nat2N.id.
      assert (Ls : (start < length l)%nat) by lia. destruct (nth_error_ex l start Ls) as [x Ex]. rewrite (skipn_cons _ _ _ Ex).
      replace (length l - start)%nat with (S (length l - start - 1)) by lia. cbn [cut_]. rewrite <- (skipn_cons _ _ _ Ex). f_equal.
      * rewrite <- Nnat.Nat2N.inj_min. rewrite range_of, seq_length. destruct (Nat.min_spec (start + bs) n) as [[H1 ->]|[H1 ->]].
        -- f_equal. lia.
        -- rewrite (firstn_all2 (n := bs)) by (rewrite skipn_length; lia). rewrite firstn_all2 by (rewrite skipn_length; lia). reflexivity.
      * rewrite skipn_skipn. replace (bs + start)%nat with (start + bs)%nat by lia. apply cut_fuel; rewrite ?skipn_length; lia.
    + constructor; [|exact HF]. cbn [fst snd]. split; [|lia]. apply N.min_glb_lt; lia.
  - exists []. split; [reflexivity|]. split; [|constructor]. intros A l Hl. rewrite skipn_all2 by lia. destruct (length l - start)%nat; reflexivity.
Qed.
Lemma ranges_hang fuel n : 0 < n -> ranges fuel n 0 0 = OutOfFuel.
Proof.
  intros Hn. induction fuel as [|f IH]; [reflexivity|]. cbn [ranges]. destruct (N.ltb_spec 0 n); [|lia]. change (wrap 64 (0 + 0)) with 0. rewrite IH. reflexivity.
Qed.
Lemma size_of_int_lt z : size_of_int z < 2 ^ 64.
Proof. unfold size_of_int. pose proof (Z.mod_pos_bound z (2 ^ 64) eq_refl). apply N2Z.inj_lt. rewrite Z2N.id by lia. change (Z.of_N (2 ^ 64)) with (2 ^ 64)%Z. lia. Qed.
Lemma size_of_int_pos z : (z mod 2 ^ 64 <> 0)%Z -> 0 < size_of_int z.
Proof. intros H. unfold size_of_int. pose proof (Z.mod_pos_bound z (2 ^ 64) eq_refl). lia. Qed.
Local Close Scope N_scope.
Lemma range_in p n : (fst p < snd p)%N /\ (snd p <= N.of_nat n)%N -> range p = seq (N.to_nat (fst p)) (length (range p)) /\ N.to_nat (fst p) + length (range p) <= n.
Proof. intros [H1 H2]. unfold range. rewrite seq_length. split; [reflexivity|]. lia. Qed.
Lemma createBatches_ok fuel (data : list (list N)) batch : (N.of_nat (length data) < 2 ^ 63)%N -> (batch mod 2 ^ 64 <> 0)%Z -> length data < fuel ->
  createBatches fuel data batch = Ret (cut (N.to_nat (size_of_int batch)) data).
Proof.
  intros Hn Hb Hf. pose proof (size_of_int_pos _ Hb) as B1. pose proof (size_of_int_lt batch) as B2.
  destruct (ranges_spec (length data) (N.to_nat (size_of_int batch)) Hn ltac:(lia) ltac:(rewrite Nnat.N2Nat.id; exact B2) fuel 0 ltac:(lia) ltac:(auto)) as (rs & E & HM & HF).
  unfold createBatches. rewrite Nnat.N2Nat.id in E. change (N.of_nat 0) with 0%N in E. rewrite E. cbn [obind].
  rewrite (omap_ok _ (fun p => firstn (length (range p)) (skipn (N.to_nat (fst p)) data))).
  - rewrite (HM _ data eq_refl). rewrite Nat.sub_0_r. reflexivity.
  - intros p Hp. rewrite Forall_forall in HF. destruct (range_in p (length data) (HF p Hp)) as [R1 R2]. rewrite R1 at 1. apply omap_at, R2.
Qed.
Lemma createBatches_hang fuel (data : list (list N)) batch : data <> [] -> (batch mod 2 ^ 64 = 0)%Z -> createBatches fuel data batch = OutOfFuel.
Proof.
  intros Hd Hb. unfold createBatches, size_of_int. rewrite Hb. change (Z.to_N 0) with 0%N. rewrite ranges_hang; [reflexivity|]. destruct data; [congruence|]. cbn [length]. lia.
Qed.

(** ** the split *)
Lemma omap_idx (data : list (list N)) idx : Forall (fun i => i < length data) idx -> omap (at_ data) idx = Ret (map (fun i => nth i data []) idx).
Proof. intros H. apply omap_ok. intros i Hi. rewrite Forall_forall in H. apply at_ok, H, Hi. Qed.
Lemma shuffle_lt n idx : shuffle n idx -> Forall (fun i => i < n) idx.
Proof. intros H. apply Forall_forall. intros i Hi. apply (Permutation_in _ H) in Hi. apply in_seq in Hi. lia. Qed.
Lemma shuffle_perm (data : list (list N)) idx : shuffle (length data) idx -> Permutation (map (fun i => nth i data []) idx) data.
Proof.
  intros H. eapply perm_trans; [apply Permutation_map, H|]. replace (map (fun i => nth i data []) (seq 0 (length data))) with data; [apply Permutation_refl|].
  clear. apply nth_error_ext; intros k. rewrite nth_error_map. destruct (Nat.lt_ge_cases k (length data)) as [Hk|Hk].
  - rewrite (nth_error_nth' (seq _ _) 0) by (rewrite seq_length; exact Hk). rewrite seq_nth by exact Hk. cbn [option_map Nat.add]. apply nth_error_nth', Hk.
  - rewrite (proj2 (nth_error_None _ _)) by exact Hk. rewrite (proj2 (nth_error_None (seq _ _) _)) by (rewrite seq_length; exact Hk). reflexivity.
Qed.
Lemma split_perm v (data : list (list N)) idx a b : shuffle (length data) idx -> splitTrainValidation v data idx = Ret (a, b) ->
  Permutation (a ++ b) data /\ exists k, to_size (sf32 (f32mul (f32ofN (N.of_nat (length data))) (f32sub f_one (c_split (vcf v))))) = Ret k /\ N.of_nat (length a) = k.
Proof.
  intros HS H. unfold splitTrainValidation in H. ob H k E. destruct (N.ltb_spec (N.of_nat (length data)) k) as [L|L]; [discriminate|].
  rewrite (omap_idx data idx (shuffle_lt _ _ HS)) in H. cbn [obind] in H. injection H as <- <-. split.
  - rewrite firstn_skipn. apply shuffle_perm, HS.
  - exists k. split; [exact E|]. rewrite firstn_length, (Permutation_length (shuffle_perm data idx HS)). lia.
Qed.
Lemma split_ret v (data : list (list N)) idx k : shuffle (length data) idx ->
  to_size (sf32 (f32mul (f32ofN (N.of_nat (length data))) (f32sub f_one (c_split (vcf v))))) = Ret k ->
  ((k <= N.of_nat (length data))%N -> exists a b, splitTrainValidation v data idx = Ret (a, b)) /\
  ((N.of_nat (length data) < k)%N -> splitTrainValidation v data idx = Throw E_bad_alloc).
Proof.
  intros HS E. unfold splitTrainValidation. rewrite E. cbn [obind]. destruct (N.ltb_spec (N.of_nat (length data)) k) as [L|L]; split; intros H; try lia; [reflexivity|].
  rewrite (omap_idx data idx (shuffle_lt _ _ HS)). cbn [obind]. eauto.
Qed.

Section V.
Variables (expf logf tanhf : sf -> sf) (gauss : N -> nat -> N) (pgauss : N -> nat -> N -> N -> N).
Local Notation VI := (VInv expf tanhf).
Local Notation zero := (S754_zero false).
Local Notation Latent := (latent_of expf logf gauss pgauss).
Local Notation Recon := (reconstruction expf logf gauss pgauss).

(** ** the losses *)
Lemma mse_ok x y : length x <= length y -> computeReconstructionLoss x y = Ret (mse x y).
Proof.
  intros H. unfold computeReconstructionLoss, mse. erewrite ofold_ret_fold; [cbn [obind]; reflexivity|]. intros s i Hi. apply in_seq in Hi.
  rewrite (at_ok x i 0%N) by lia. cbn [obind]. rewrite (at_ok y i 0%N) by lia. reflexivity.
Qed.
Lemma kl_ok v m l : latent_dim v <= length m -> latent_dim v <= length l -> computeKLDivergence expf v m l = Ret (kl_of expf (latent_dim v) m l).
Proof.
  intros H1 H2. unfold computeKLDivergence, kl_of. apply ofold_ret_fold. intros s i Hi. apply in_seq in Hi.
  rewrite (at_ok m i 0%N) by lia. cbn [obind]. rewrite (at_ok l i 0%N) by lia. reflexivity.
Qed.
Lemma latent_length v x r : length (Latent v x r) = latent_dim v. Proof. unfold latent_of. rewrite map_length, seq_length. reflexivity. Qed.
Lemma latent_quiet v w x r : quiet v w -> Latent w x r = Latent v x r.
Proof. intros Q. pose proof (encoded_quiet logf _ _ x Q) as E. destruct Q as [_ _ _ E']. injection E' as _ _ E3 _ _ E6 _. unfold latent_of. rewrite E, E3, E6. reflexivity. Qed.
Lemma recon_quiet v w x r : quiet v w -> Recon w x r = Recon v x r.
Proof. intros Q. unfold reconstruction. rewrite (latent_quiet _ _ _ _ Q). apply decoded_quiet, Q. Qed.
Lemma losses_quiet v w x r : quiet v w -> recon_loss expf logf gauss pgauss w x r = recon_loss expf logf gauss pgauss v x r /\ kl_loss expf logf w x = kl_loss expf logf v x /\
  total_loss expf logf gauss pgauss w x r = total_loss expf logf gauss pgauss v x r.
Proof.
  intros Q. assert (A : recon_loss expf logf gauss pgauss w x r = recon_loss expf logf gauss pgauss v x r) by (unfold recon_loss; rewrite (recon_quiet _ _ _ _ Q); reflexivity).
  assert (B : kl_loss expf logf w x = kl_loss expf logf v x).
  { unfold kl_loss. rewrite (encoded_quiet logf _ _ _ Q). destruct Q as [_ _ _ E']. injection E' as _ _ E3 _ _ _ _. rewrite E3. reflexivity. }
  split; [exact A|]. split; [exact B|]. unfold total_loss. rewrite A, B. destruct Q as [_ _ _ E']. injection E' as _ _ _ _ _ E6 _. rewrite E6. reflexivity.
Qed.
Lemma recon_length v x r : VI v -> length (Recon v x r) = input_dim v.
Proof. intros HV. destruct (decode_quiet expf tanhf v (Latent v x r) zero no_draws HV (calm0 v) (latent_length v x r)) as (s & _ & L & _). exact L. Qed.
(* the first steps of every training loop *)
Lemma steps_ok v x r : VI v -> length x = input_dim v -> exists w1 w2, encode logf v x zero no_draws = Ret (fst (encoded logf v x), snd (encoded logf v x), w1) /\
  sample expf gauss pgauss w1 (fst (encoded logf v x)) (snd (encoded logf v x)) 0 r = Ret (Latent v x r) /\
  decode expf w1 (Latent v x r) zero no_draws = Ret (Recon v x r, w2) /\ loud v w1 /\ loud v w2.
Proof.
  intros HV Hx. destruct (encode_quiet expf logf tanhf v x zero no_draws HV (calm0 v) Hx) as (s & C & L & E). pose proof (quiet_enc v s C) as Q1.
  destruct (encoded_lengths expf logf tanhf v x HV Hx) as [L1 L2]. exists (with_enc v s).
  destruct (decode_quiet expf tanhf (with_enc v s) (Latent v x r) zero no_draws (VI_quiet _ _ _ _ Q1 HV) (calm0 _) (latent_length v x r)) as (s2 & C2 & _ & E2).
  exists (with_dec (with_enc v s) s2). split; [exact E|]. split; [rewrite (sample_quiet _ _ _ _ _ _ _ _ _ Q1); apply sample_ok; lia|].
  split; [rewrite E2, (decoded_quiet _ _ _ _ Q1); reflexivity|]. split; [split; [exact Q1|reflexivity]|]. split; [|reflexivity].
  eapply quiet_trans; [exact Q1|apply quiet_dec, C2].
Qed.
Lemma pass_ok v x r : VI v -> length x = input_dim v -> exists w, pass expf logf gauss pgauss v x r =
  Ret (recon_loss expf logf gauss pgauss v x r, kl_loss expf logf v x, total_loss expf logf gauss pgauss v x r, fst (encoded logf v x), snd (encoded logf v x), Recon v x r, w) /\ loud v w.
Proof.
  intros HV Hx. destruct (steps_ok v x r HV Hx) as (w1 & w2 & E1 & E2 & E3 & Q1 & Q2). unfold pass. rewrite E1. cbn [obind]. rewrite E2. cbn [obind]. rewrite E3. cbn [obind fst snd].
  rewrite mse_ok by (rewrite recon_length by exact HV; lia). cbn [obind]. destruct (encoded_lengths expf logf tanhf v x HV Hx) as [L1 L2].
  assert (D : latent_dim w2 = latent_dim v /\ vcf w1 = vcf v). { destruct Q1 as [[_ _ _ Q1] _], Q2 as [[_ _ _ Q2] _]. injection Q1 as _ _ _ _ _ D1 _. injection Q2 as _ _ D2 _ _ _ _. auto. }
  destruct D as [D1 D2]. rewrite kl_ok by lia. cbn [obind]. rewrite D1, D2. exists w2. split; [reflexivity|exact Q2].
Qed.
Lemma pass_wrong v x r : VI v -> length x <> input_dim v -> pass expf logf gauss pgauss v x r = Throw E_invalid_argument.
Proof. intros HV Hx. unfold pass. rewrite (encode_wrong expf logf tanhf v x _ _ HV Hx). reflexivity. Qed.

(** ** evaluation *)
Lemma evaluate_fold data r : forall v w0 acc, VI v -> loud v w0 -> Forall (fun p => length (snd p) = input_dim v) data ->
  exists w, ofold (fun tv p => y <- vforward expf logf gauss pgauss (snd tv) (snd p) zero no_draws no_draws (r (fst p)) no_noise ;;
                          l <- computeReconstructionLoss (snd p) (fst y) ;; Ret (f32add (fst tv) l, snd y)) data (acc, w0) =
            Ret (fold_left (fun s (p : nat * list N) => f32add s (recon_loss expf logf gauss pgauss v (snd p) (r (fst p)))) data acc, w) /\ loud v w.
Proof.
  induction data as [|[i x] data IH]; intros v w0 acc HV Q HF; cbn [ofold fold_left]; [eauto|]. inversion HF as [|p l F1 F2]; subst. cbn [fst snd] in *.
  pose proof (VI_quiet _ _ _ _ (proj1 Q) HV) as HW. assert (Hx : length x = input_dim w0). { destruct Q as [[_ _ _ E] _]. injection E as _ E2 _ _ _ _ _. congruence. }
  destruct (forward_still expf logf tanhf gauss pgauss w0 x zero no_draws no_draws (r i) no_noise HW (still0 _) Hx) as (w1 & E & Q1 & V1). rewrite E. cbn [obind fst snd].
  change (decoded expf w0 (latent expf logf gauss pgauss w0 x (r i))) with (Recon w0 x (r i)). rewrite (recon_quiet _ _ _ _ (proj1 Q)).
  rewrite mse_ok by (rewrite recon_length by exact HV; lia). cbn [obind]. apply IH; [exact HV| |exact F2].
  eapply loud_trans; [exact Q|split; assumption].
Qed.
Lemma index_snd {A} (P : A -> Prop) (l : list A) : forall i, Forall P l -> Forall (fun p => P (snd p)) (index i l).
Proof. induction l as [|x l IH]; intros i H; [constructor|]. inversion H; subst. constructor; auto. Qed.
Lemma evaluate_ok v data r : VI v -> all_of (input_dim v) data -> exists w, vevaluate expf logf gauss pgauss v data r =
  Ret (f32div (fold_left (fun s (p : nat * list N) => f32add s (recon_loss expf logf gauss pgauss v (snd p) (r (fst p)))) (index 0 data) 0%N) (f32ofN (N.of_nat (length data))), w) /\ loud v w.
Proof.
  intros HV HA. destruct (evaluate_fold (index 0 data) r v v 0%N HV (loud_refl v) (index_snd _ _ 0 HA)) as (w & E & Q). unfold vevaluate. rewrite E. cbn [obind fst snd]. eauto.
Qed.
Lemma comprehensive_fold data r : forall v w0 a b c, VI v -> loud v w0 -> Forall (fun p => length (snd p) = input_dim v) data ->
  exists w, ofold (fun a p => let '(tl, tk, tr, v) := a in
                x <- pass expf logf gauss pgauss v (snd p) (r (fst p)) ;;
                let '(recon, kl, total, _, _, _, v) := x in Ret (f32add tl total, f32add tk kl, f32add tr recon, v)) data (a, b, c, w0) =
            Ret (fold_left (fun s (p : nat * list N) => f32add s (total_loss expf logf gauss pgauss v (snd p) (r (fst p)))) data a,
                 fold_left (fun s (p : nat * list N) => f32add s (kl_loss expf logf v (snd p))) data b,
                 fold_left (fun s (p : nat * list N) => f32add s (recon_loss expf logf gauss pgauss v (snd p) (r (fst p)))) data c, w) /\ loud v w.
Proof.
  induction data as [|[i x] data IH]; intros v w0 a b c HV Q HF; cbn [ofold fold_left]; [eauto|]. inversion HF as [|p l F1 F2]; subst. cbn [fst snd] in *.
  pose proof (VI_quiet _ _ _ _ (proj1 Q) HV) as HW. assert (Hx : length x = input_dim w0). { destruct Q as [[_ _ _ E] _]. injection E as _ E2 _ _ _ _ _. congruence. }
  destruct (pass_ok w0 x (r i) HW Hx) as (w1 & E & Q1). rewrite E. cbn [obind]. destruct (losses_quiet v w0 x (r i) (proj1 Q)) as (-> & -> & ->).
  apply IH; [exact HV|eapply loud_trans; eassumption|exact F2].
Qed.
Lemma comprehensive_ok v data r : VI v -> all_of (input_dim v) data -> exists w, evaluateComprehensive expf logf gauss pgauss v data r =
  Ret (f32div (fold_left (fun s (p : nat * list N) => f32add s (total_loss expf logf gauss pgauss v (snd p) (r (fst p)))) (index 0 data) 0%N) (f32ofN (N.of_nat (length data))),
       f32div (fold_left (fun s (p : nat * list N) => f32add s (kl_loss expf logf v (snd p))) (index 0 data) 0%N) (f32ofN (N.of_nat (length data))),
       f32div (fold_left (fun s (p : nat * list N) => f32add s (recon_loss expf logf gauss pgauss v (snd p) (r (fst p)))) (index 0 data) 0%N) (f32ofN (N.of_nat (length data))),
       f32ofN (N.of_nat (latent_dim v)), c_beta (vcf v), w) /\ loud v w.
Proof.
  intros HV HA. destruct (comprehensive_fold (index 0 data) r v v 0%N 0%N 0%N HV (loud_refl v) (index_snd _ _ 0 HA)) as (w & E & Q). unfold evaluateComprehensive. rewrite E. cbn [obind].
  exists w. split; [|exact Q]. destruct Q as [[_ _ _ E'] _]. injection E' as _ _ E3 _ _ E6 _. rewrite E3, E6. reflexivity.
Qed.
End V.
