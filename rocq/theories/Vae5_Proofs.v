(** The autoencoder: trainProduction and early stopping; the loss train() returns. *)
From Coq Require Import List NArith ZArith Bool Arith Lia SpecFloat Permutation.
Import ListNotations.
From Verif Require Import Outcome Words Arith Floats Bits_Model MBP_Model PNN_Model PNN_Spec PNN_Proofs PNN2_Proofs PNN3_Proofs PNN4_Proofs PNN5_Proofs Residual_Model Vae_Model Vae_Spec Vae_Proofs Vae2_Proofs Vae3_Proofs Vae4_Proofs.
Local Open Scope nat_scope.
Local Open Scope outcome_scope.

(** ** early stopping *)
Lemma best_after_app d b l x : best_after d b (l ++ [x]) = if improves d (best_after d b l) x then x else best_after d b l.
Proof. revert b; induction l as [|a l IH]; intros b; cbn [app best_after]; [reflexivity|apply IH]. Qed.
Lemma stale_after_app d b k l x : stale_after d b k (l ++ [x]) = if improves d (best_after d b l) x then 0%Z else (stale_after d b k l + 1)%Z.
Proof.
  revert b k; induction l as [|a l IH]; intros b k; cbn [app stale_after best_after]; [destruct (improves d b x); reflexivity|].
  destruct (improves d b a); rewrite IH; reflexivity.
Qed.
Lemma tracked_new c : tracked c new_metrics 0.
Proof. constructor; cbn; auto. intros; lia. Qed.
Lemma nth_error_snoc {A} (l : list A) x k : nth_error (l ++ [x]) k = if Nat.eqb k (length l) then Some x else nth_error l k.
Proof.
  destruct (Nat.eqb_spec k (length l)) as [->|H]; [rewrite nth_error_app2, Nat.sub_diag by lia; reflexivity|].
  destruct (Nat.lt_ge_cases k (length l)); [apply nth_error_app1; assumption|]. rewrite (proj2 (nth_error_None _ _)), (proj2 (nth_error_None _ _)); rewrite ?app_length; cbn; auto; lia.
Qed.
Lemma tracked_note c m e tl vl kl rl : tracked c m e -> (0 < e -> (without_improvement m < c_patience c)%Z) -> tracked c (note_epoch c m e tl vl kl rl) (S e).
Proof.
  intros [(L1 & L2 & L3 & L4) B S1 E P] Hp. unfold note_epoch. fold (improves (c_delta c) (best_val_loss m) vl). set (better := improves (c_delta c) (best_val_loss m) vl).
  constructor; cbn [val_losses train_losses kl_losses recon_losses best_val_loss best_epoch without_improvement].
  - rewrite !app_length. cbn [length]. lia.
  - rewrite best_after_app, <- B. reflexivity.
  - rewrite stale_after_app, <- B, <- S1. reflexivity.
  - destruct better.
    + right. exists e. split; [reflexivity|]. split; [rewrite nth_error_snoc, L1, Nat.eqb_refl; reflexivity|lia].
    + destruct E as [(E1 & E2 & E3)|(k & E1 & E2 & E3)].
      * left. repeat split; auto. lia.
      * right. exists k. split; [exact E1|]. split; [|lia]. rewrite nth_error_snoc. assert (k < length (val_losses m)) by (apply nth_error_Some; congruence).
        destruct (Nat.eqb_spec k (length (val_losses m))); [lia|exact E2].
  - intros j Hj. rewrite firstn_app, L1. replace (j - e) with 0 by lia. cbn [firstn]. rewrite app_nil_r. destruct (Nat.eq_dec j e) as [->|Hn].
    + rewrite <- L1, firstn_all. rewrite <- S1. apply Hp. lia.
    + apply P. lia.
Qed.

Section V.
Variables (expf logf tanhf : sf -> sf) (gauss : N -> nat -> N) (pgauss : N -> nat -> N -> N -> N).
Local Notation VI := (VInv expf tanhf).
Local Notation zero := (S754_zero false).
Local Notation Total := (total_loss expf logf gauss pgauss).
Local Notation Kl := (kl_loss expf logf).
Local Notation Rec := (recon_loss expf logf gauss pgauss).

Lemma input_loud v w : loud v w -> input_dim w = input_dim v /\ latent_dim w = latent_dim v /\ vcf w = vcf v.
Proof. intros [[_ _ _ E] _]. injection E as _ E2 E3 _ _ E6 _. auto. Qed.
Lemma gradients_ok v x y m l : latent_dim v <= length m -> latent_dim v <= length l -> input_dim v <= length x -> input_dim v <= length y ->
  exists g1 g2, computeEncoderGradients expf v m l = Ret g1 /\ computeDecoderGradients v x y = Ret g2.
Proof.
  intros H1 H2 H3 H4. unfold computeEncoderGradients, computeDecoderGradients.
  rewrite (omap_ok _ (fun i => nth i m 0%N)) by (intros i Hi; apply in_seq in Hi; apply at_ok; lia). cbn [obind].
  rewrite (omap_ok _ (fun i => f32mul f_half (f32sub (lib expf (nth i l 0%N)) f_one))).
  2: { intros i Hi; apply in_seq in Hi. rewrite (at_ok l i 0%N) by lia. reflexivity. }
  cbn [obind]. eexists _, _. split; [reflexivity|]. apply omap_ok with (g := fun i => f32div (f32mul f_two (f32sub (nth i y 0%N) (nth i x 0%N))) (f32ofN (N.of_nat (input_dim v)))).
  intros i Hi; apply in_seq in Hi. rewrite (at_ok y i 0%N) by lia. cbn [obind]. rewrite (at_ok x i 0%N) by lia. reflexivity.
Qed.
Lemma prod_sample_ok v w0 r a b c i x : VI v -> loud v w0 -> length x = input_dim v -> exists w,
  prod_sample expf logf gauss pgauss r (a, b, c, w0) (i, x) = Ret (f32add a (Total v x (r i)), f32add b (Kl v x), f32add c (Rec v x (r i)), w) /\ loud v w.
Proof.
  intros HV Q Hx. destruct (input_loud _ _ Q) as (D1 & D2 & D3). pose proof (VI_quiet _ _ _ _ (proj1 Q) HV) as HW.
  destruct (pass_ok expf logf tanhf gauss pgauss w0 x (r i) HW ltac:(congruence)) as (w & E & Q1). unfold prod_sample. cbn [fst snd]. rewrite E. cbn [obind].
  destruct (losses_quiet expf logf gauss pgauss v w0 x (r i) (proj1 Q)) as (-> & -> & ->). pose proof (loud_trans _ _ _ Q Q1) as Q2. destruct (input_loud _ _ Q2) as (F1 & F2 & F3).
  destruct (encoded_lengths expf logf tanhf w0 x HW ltac:(congruence)) as [L1 L2]. pose proof (recon_length expf logf tanhf gauss pgauss w0 x (r i) HW) as L3.
  destruct (gradients_ok w x (reconstruction expf logf gauss pgauss w0 x (r i)) (fst (encoded logf w0 x)) (snd (encoded logf w0 x)) ltac:(lia) ltac:(lia) ltac:(lia) ltac:(lia)) as (g1 & g2 & -> & ->).
  cbn [obind]. eauto.
Qed.
Lemma prod_samples_ok v r data : VI v -> Forall (fun p => length (snd p) = input_dim v) data -> forall w0 a b c, loud v w0 -> exists w,
  ofold (prod_sample expf logf gauss pgauss r) data (a, b, c, w0) =
  Ret (fold_left (fun s (p : nat * list N) => f32add s (Total v (snd p) (r (fst p)))) data a, fold_left (fun s (p : nat * list N) => f32add s (Kl v (snd p))) data b,
       fold_left (fun s (p : nat * list N) => f32add s (Rec v (snd p) (r (fst p)))) data c, w) /\ loud v w.
Proof.
  intros HV HF. induction HF as [|[i x] data F1 F2 IH]; intros w0 a b c Q; cbn [ofold fold_left]; [eauto|]. cbn [fst snd] in *.
  destruct (prod_sample_ok v w0 r a b c i x HV Q F1) as (w & E & Q1). rewrite E. cbn [obind]. apply IH, Q1.
Qed.
Lemma prod_batch_ok v r k bt : VI v -> all_of (input_dim v) bt -> forall w0 a b c, loud v w0 -> exists w,
  prod_batch expf logf gauss pgauss r (a, b, c, w0) (k, bt) =
  Ret (f32add a (mean_loss (fun i x => Total v x (r k i)) bt), f32add b (mean_loss (fun _ x => Kl v x) bt), f32add c (mean_loss (fun i x => Rec v x (r k i)) bt), w) /\ loud v w.
Proof.
  intros HV HF w0 a b c Q. unfold prod_batch. cbn [fst snd]. destruct (prod_samples_ok v (r k) (index 0 bt) HV (index_snd _ _ 0 HF) w0 0%N 0%N 0%N Q) as (w & E & Q1).
  rewrite E. cbn [obind]. exists w. split; [reflexivity|exact Q1].
Qed.
Lemma prod_batches_ok v r bts : VI v -> Forall (fun p => all_of (input_dim v) (snd p)) bts -> forall w0 a b c, loud v w0 -> exists w,
  ofold (prod_batch expf logf gauss pgauss r) bts (a, b, c, w0) =
  Ret (fold_left (fun s (p : nat * list (list N)) => f32add s (mean_loss (fun i x => Total v x (r (fst p) i)) (snd p))) bts a,
       fold_left (fun s (p : nat * list (list N)) => f32add s (mean_loss (fun _ x => Kl v x) (snd p))) bts b,
       fold_left (fun s (p : nat * list (list N)) => f32add s (mean_loss (fun i x => Rec v x (r (fst p) i)) (snd p))) bts c, w) /\ loud v w.
Proof.
  intros HV HF. induction HF as [|[i x] data F1 F2 IH]; intros w0 a b c Q; cbn [ofold fold_left]; [eauto|]. cbn [fst snd] in *.
  destruct (prod_batch_ok v r i x HV F1 w0 a b c Q) as (w & E & Q1). rewrite E. cbn [obind]. apply IH, Q1.
Qed.
Lemma val_ok v r data : VI v -> Forall (fun p => length (snd p) = input_dim v) data -> forall w0 a, loud v w0 -> exists w,
  ofold (val_sample expf logf gauss pgauss r) data (a, w0) = Ret (fold_left (fun s (p : nat * list N) => f32add s (Total v (snd p) (r (fst p)))) data a, w) /\ loud v w.
Proof.
  intros HV HF. induction HF as [|[i x] data F1 F2 IH]; intros w0 a Q; cbn [ofold fold_left]; [eauto|]. cbn [fst snd] in *.
  unfold val_sample at 1. cbn [fst snd]. destruct (input_loud _ _ Q) as (D1 & D2 & D3). destruct (pass_ok expf logf tanhf gauss pgauss w0 x (r i) (VI_quiet _ _ _ _ (proj1 Q) HV) ltac:(congruence)) as (w & E & Q1).
  rewrite E. cbn [obind]. destruct (losses_quiet expf logf gauss pgauss v w0 x (r i) (proj1 Q)) as (_ & _ & ->). apply IH. eapply loud_trans; eassumption.
Qed.
Local Notation trained_on := (Vae_Spec.trained_on expf logf gauss pgauss).
Lemma map_seq_S {A} (f : nat -> A) n : map f (seq 0 (S n)) = map f (seq 0 n) ++ [f n].
Proof. rewrite seq_S, map_app. reflexivity. Qed.
Lemma trained_quiet v w ts vs rt rv m : quiet v w -> trained_on v ts vs rt rv m -> trained_on w ts vs rt rv m.
Proof.
  intros Q. assert (D : vcf w = vcf v) by (destruct Q as [_ _ _ E]; injection E; auto). unfold Vae_Spec.trained_on. cbv zeta. rewrite D.
  assert (E : forall x r, Total w x r = Total v x r /\ Kl w x = Kl v x /\ Rec w x r = Rec v x r) by (intros x r; destruct (losses_quiet expf logf gauss pgauss v w x r Q) as (A & B & C); auto).
  assert (M : forall f g data, (forall i x, f i x = g i x) -> mean_loss f data = mean_loss g data).
  { intros f g data HE. unfold mean_loss. f_equal. generalize 0%N. induction (index 0 data) as [|p l IH]; intros a; cbn [fold_left]; [reflexivity|]. rewrite HE. apply IH. }
  assert (EM : forall f g data, (forall b i x, f b i x = g b i x) -> epoch_mean f data = epoch_mean g data).
  { intros f g data HE. unfold epoch_mean. f_equal. generalize 0%N. induction (index 0 data) as [|p l IH]; intros a; cbn [fold_left]; [reflexivity|]. rewrite (M _ (g (fst p)) _ (HE _)). apply IH. }
  intros (A & B & C & F). repeat split.
  - rewrite A at 1. apply map_ext. intros e. apply EM. intros; symmetry; apply E.
  - rewrite B at 1. apply map_ext. intros e. apply EM. intros; symmetry; apply (E x 0%N).
  - rewrite C at 1. apply map_ext. intros e. apply EM. intros; symmetry; apply E.
  - rewrite F at 1. apply map_ext. intros e. apply M. intros; symmetry; apply E.
Qed.
Lemma Forall_concat_in {A} (P : A -> Prop) (l : list (list A)) : Forall P (concat l) -> Forall (Forall P) l.
Proof. induction l as [|a l IH]; intros H; [constructor|]. cbn [concat] in H. apply Forall_app in H. constructor; tauto. Qed.
Lemma prod_epochs_ok fuel ts vs rt rv n : (N.of_nat (length ts) < 2 ^ 63)%N -> length ts < fuel -> forall v e, VI v -> (c_batch (vcf v) mod 2 ^ 64 <> 0)%Z ->
  all_of (input_dim v) ts -> all_of (input_dim v) vs -> tracked (vcf v) (vmetrics v) e -> trained_on v ts vs rt rv (vmetrics v) ->
  (0 < e -> (without_improvement (vmetrics v) < c_patience (vcf v))%Z) ->
  exists w k, prod_epochs expf logf gauss pgauss fuel v ts vs rt rv e n = Ret w /\ quiet v w /\ k <= n /\ tracked (vcf v) (vmetrics w) (e + k) /\ trained_on v ts vs rt rv (vmetrics w) /\
    (k = n \/ (c_patience (vcf v) <= without_improvement (vmetrics w))%Z) /\ (0 < n -> 0 < k).
Proof.
  intros Hn Hf. induction n as [|n IH]; intros v e HV Hb HT HS TR TO PT; cbn [prod_epochs].
  - exists v, 0. rewrite Nat.add_0_r. split; [reflexivity|]. split; [apply quiet_refl|]. split; [lia|]. split; [exact TR|]. split; [exact TO|]. split; [left; reflexivity|lia].
  - rewrite createBatches_ok by assumption. cbn [obind]. set (bs := cut _ ts) in *.
    assert (HB : Forall (fun p => all_of (input_dim v) (snd p)) (index 0 bs)).
    { apply index_snd. apply Forall_concat_in. unfold bs, cut. rewrite cut_concat; [exact HT| |lia]. pose proof (size_of_int_pos _ Hb). lia. }
    destruct (prod_batches_ok v (rt e) (index 0 bs) HV HB v 0%N 0%N 0%N (loud_refl v)) as (w1 & E1 & Q1). rewrite E1. cbn [obind].
    destruct (val_ok v (rv e) (index 0 vs) HV (index_snd _ _ 0 HS) w1 0%N Q1) as (w2 & E2 & Q2). rewrite E2. cbn [obind fst snd].
    assert (D : vcf w2 = vcf v /\ vmetrics w2 = vmetrics v). { destruct Q2 as [[_ _ _ E] V]. injection E as _ _ _ _ _ D6 _. auto. }
    destruct D as [D1 D2]. rewrite D1, D2. 
    match goal with |- context [note_epoch _ _ _ ?a ?b ?c ?d] => set (tl := a); set (vl := b); set (kl := c); set (rl := d) end.
    set (m := note_epoch (vcf v) (vmetrics v) e tl vl kl rl). change (vcf (with_metrics w2 m)) with (vcf w2). rewrite D1.
    assert (QM : quiet v (with_metrics w2 m)) by (eapply quiet_trans; [exact (proj1 Q2)|apply quiet_metrics]).
    pose proof (tracked_note (vcf v) (vmetrics v) e tl vl kl rl TR PT) as TR'. fold m in TR'.
    assert (TO' : trained_on v ts vs rt rv m).
    { unfold Vae_Spec.trained_on in TO. cbv zeta in TO. fold bs in TO. destruct TO as (A & B & C & F). pose proof (t_len _ _ _ TR) as (Lv & _). rewrite Lv in A, B, C, F. pose proof (t_len _ _ _ TR') as (Lv' & _).
      unfold Vae_Spec.trained_on. cbv zeta. fold bs. rewrite Lv', !map_seq_S. rewrite <- A, <- B, <- C, <- F. repeat split. }
    destruct (Z.leb_spec (c_patience (vcf v)) (without_improvement m)) as [HP|HP].
    + exists (with_metrics w2 m), 1. split; [reflexivity|]. split; [exact QM|]. split; [lia|]. rewrite Nat.add_1_r. split; [exact TR'|]. split; [exact TO'|]. split; [right; exact HP|lia].
    + destruct (IH (with_metrics w2 m) (S e) (VI_quiet _ _ _ _ QM HV)) as (w & k & E & QW & Hk & TW & TOW & HD & H0).
      * cbn [with_metrics vcf]. rewrite D1. exact Hb.
      * assert (D : input_dim (with_metrics w2 m) = input_dim v) by (destruct QM as [_ _ _ E]; injection E; auto). rewrite D. exact HT.
      * assert (D : input_dim (with_metrics w2 m) = input_dim v) by (destruct QM as [_ _ _ E]; injection E; auto). rewrite D. exact HS.
      * cbn [with_metrics vcf vmetrics]. rewrite D1. exact TR'.
      * apply (trained_quiet v _ _ _ _ _ _ QM). exact TO'.
      * intros _. cbn [with_metrics vcf vmetrics]. rewrite D1. exact HP.
      * exists w, (S k). split; [exact E|]. split; [eapply quiet_trans; eassumption|]. split; [lia|]. cbn [with_metrics vcf] in TW, HD. rewrite D1 in TW, HD.
        replace (e + S k) with (S e + k) by lia. split; [exact TW|]. split.
        -- assert (QB : quiet (with_metrics w2 m) v) .
           { destruct QM as [[c1 C1] [c2 C2] [c3 C3] E']. constructor; [exists (counter (enc v)); rewrite C1; destruct (enc v); reflexivity|exists (counter (dec v)); rewrite C2; destruct (dec v); reflexivity
               |exists (counter (itp v)); rewrite C3; destruct (itp v); reflexivity|congruence]. }
           apply (trained_quiet _ _ _ _ _ _ _ QB). exact TOW.
        -- split; [destruct HD as [HD|HD]; [left; lia|right; exact HD]|lia].
Qed.
End V.
