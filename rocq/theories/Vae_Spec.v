(** Vocabulary of the properties of the variational autoencoder, independent of how the model computes. *)
From Coq Require Import List NArith ZArith Bool Arith Reals SpecFloat Permutation.
Import ListNotations.
From Flocq.IEEE754 Require Import BinarySingleNaN.
From Verif Require Import Outcome Words Floats FloatsR HealthFloat FloatsS MBP_Model PNN_Model PNN_Spec Vae_Model.
Local Open Scope nat_scope.

(** An autoencoder built by the constructor and then used in any way (but for loading files). *)
Definition vreachable (expf logf tanhf : sf -> sf) (gauss : N -> nat -> N) (pgauss : N -> nat -> N -> N -> N) (v : vae) : Prop :=
  exists addr inp lat hid lv c i1 i2 i3 v0 ops,
    vae_new expf tanhf addr inp lat hid lv c i1 i2 i3 = Ret v0 /\ vrun expf logf gauss pgauss v0 ops = Ret v.
(** no layer of zero neurons next to another one *)
Fixpoint no_double_zero (l : list nat) : Prop :=
  match l with a :: r => (match r with b :: _ => 0 < a + b | [] => True end) /\ no_double_zero r | [] => True end.
(** the number a pattern denotes is finite and lies between lo and hi *)
Definition between (lo hi : Rdefinitions.R) (x : N) : Prop := oks (sf32 x) /\ (lo <= R (sf32 x) <= hi)%R.
Definition is_nan32 (x : N) : Prop := sf32 x = S754_nan.
Definition finite32 (x : N) : Prop := oks (sf32 x).
(** a 32-bit pattern of a finite float other than -0; the pattern of NaN *)
Definition plain (a : N) : Prop := (a < 2 ^ 32)%N /\ finite32 a /\ sf32 a <> S754_zero true.
Definition nan32 : N := 2143289344.
(** a size fits a size_t *)
Definition fits (n : nat) : Prop := (N.of_nat n < 2 ^ 64)%N.
(** std::exp, std::log, std::tanh of floats answer floats *)
Definition float_fun (f : sf -> sf) : Prop := forall x, V32 x = true -> V32 (f x) = true.
(** what is needed of std::exp: NaN for NaN, never negative, not decreasing, and 1 <= exp x <= 2.72 for 0 <= x <= 1 *)
Record exp_ok (expf : sf -> sf) : Prop := {
  exp_float : float_fun expf;
  exp_nan : expf S754_nan = S754_nan;
  exp_pos : forall x, V32 x = true -> x <> S754_nan -> expf x = S754_infinity false \/ (oks (expf x) /\ (0 <= R (expf x))%R);
  exp_unit : forall x, oks x -> (0 <= R x <= 1)%R -> oks (expf x) /\ (1 <= R (expf x) <= 272 / 100)%R }.
(** the weights, biases and activation functions of the three networks *)
Definition weights_of (v : vae) := (params (enc v), params (dec v), params (itp v)).
(** the two objects would answer every call with the same numbers: same networks, dimensions and options *)
Definition same_answers (v w : vae) : Prop :=
  weights_of v = weights_of w /\ (acts (enc v), acts (dec v), acts (itp v)) = (acts (enc w), acts (dec w), acts (itp w)) /\
  (sizes (enc v), sizes (dec v), sizes (itp v)) = (sizes (enc w), sizes (dec w), sizes (itp w)) /\
  (input_dim v, latent_dim v, hidden v, vlevel v) = (input_dim w, latent_dim w, hidden w, vlevel w).
(** radiation at which no activation is voted on *)
Definition calm (v : vae) (rad : sf) : Prop := (vlevel v <> FULL_TMR /\ vlevel v <> ADAPTIVE_TMR) \/ fgt rad (dlit 2 10) = false.
(** every vector has n coordinates *)
Definition all_of (n : nat) (data : list (list N)) : Prop := Forall (fun x => length x = n) data.
(** a shuffle of the indices 0 .. n-1 *)
Definition shuffle (n : nat) (idx : list nat) : Prop := Permutation idx (seq 0 n).
(** a NaN anywhere makes a comparison false, so these are the losses that count as an improvement on [best] *)
Definition improves (delta best loss : N) : bool := f32lt loss (f32sub best delta).
(** the best loss after a list of losses: the last one that was an improvement on the best so far *)
Fixpoint best_after (delta best : N) (losses : list N) : N :=
  match losses with [] => best | l :: r => best_after delta (if improves delta best l then l else best) r end.
(** how many losses at the end of the list were no improvement *)
Fixpoint stale_after (delta best : N) (k : Z) (losses : list N) : Z :=
  match losses with [] => k | l :: r => if improves delta best l then stale_after delta l 0 r else stale_after delta best (k + 1)%Z r end.
(** what encode, decode and a deterministic pass compute when no activation is voted on *)
Definition encoded (logf : sf -> sf) (v : vae) (x : list N) : list N * list N :=
  let y := network (params (enc v)) (acts (enc v)) (applyStandardization (applyLogarithmics logf x)) in
  (firstn (latent_dim v) y, map clamp_log_var (skipn (latent_dim v) y)).
Definition decoded (expf : sf -> sf) (v : vae) (z : list N) : list N := applyInverseLogarithmics expf (network (params (dec v)) (acts (dec v)) z).
(** coordinate i of a sampled latent vector *)
Definition drawn (expf : sf -> sf) (gauss : N -> nat -> N) (pgauss : N -> nat -> N -> N -> N) (how : sampling) (seed : N) (mean log_var : list N) (i : nat) : N :=
  let m := nth i mean 0%N in let sigma := lib expf (f32mul f_half (nth i log_var 0%N)) in
  match how with STANDARD => pgauss seed i m sigma | _ => f32add m (f32mul sigma (gauss seed i)) end.
(** neither votes nor latent protection *)
Definition still (v : vae) (rad : sf) : Prop := calm v rad /\ fgt rad (dlit 1 10) = false.
(** ** training, in terms of what a sample's losses are *)
(** mean squared error, KL divergence, as the code sums them *)
Definition mse (x y : list N) : N :=
  f32div (fold_left (fun s i => f32add s (f32mul (f32sub (nth i x 0%N) (nth i y 0%N)) (f32sub (nth i x 0%N) (nth i y 0%N)))) (seq 0 (length x)) 0%N) (f32ofN (N.of_nat (length x))).
Definition kl_of (expf : sf -> sf) (lat : nat) (mean log_var : list N) : N :=
  fold_left (fun s i => f32add s (f32mul f_half (f32sub (f32sub (f32add (f32mul (nth i mean 0%N) (nth i mean 0%N)) (lib expf (nth i log_var 0%N))) (nth i log_var 0%N)) f_one))) (seq 0 lat) 0%N.
Section Losses.
Variables (expf logf : sf -> sf) (gauss : N -> nat -> N) (pgauss : N -> nat -> N -> N -> N).
(** the reconstruction of x when rng_() answers r *)
Definition latent_of (v : vae) (x : list N) (r : N) : list N :=
  map (drawn expf gauss pgauss (c_sampling (vcf v)) (engine_seed 0 r) (fst (encoded logf v x)) (snd (encoded logf v x))) (seq 0 (latent_dim v)).
Definition reconstruction (v : vae) (x : list N) (r : N) : list N := decoded expf v (latent_of v x r).
Definition recon_loss (v : vae) (x : list N) (r : N) : N := mse x (reconstruction v x r).
Definition kl_loss (v : vae) (x : list N) : N := kl_of expf (latent_dim v) (fst (encoded logf v x)) (snd (encoded logf v x)).
Definition total_loss (v : vae) (x : list N) (r : N) : N := f32add (recon_loss v x r) (f32mul (c_beta (vcf v)) (kl_loss v x)).
End Losses.
(** the first n elements, the next n, and so on *)
Fixpoint cut_ {A} (fuel n : nat) (l : list A) : list (list A) :=
  match fuel with O => [] | S f => match l with [] => [] | _ => firstn n l :: cut_ f n (skipn n l) end end.
Definition cut {A} (n : nat) (l : list A) : list (list A) := cut_ (length l) n l.
(** sum of the losses of the samples of a batch, in order, over their number; sum of the batch means over k *)
Definition batch_mean (loss : nat * list N -> N) (b : list (nat * list N)) : N := f32div (fold_left (fun s p => f32add s (loss p)) b 0%N) (f32ofN (N.of_nat (length b))).
Definition mean_of_batches (loss : nat * list N -> N) (k : N) (bs : list (list (nat * list N))) : N := f32div (fold_left (fun s b => f32add s (batch_mean loss b)) bs 0%N) (f32ofN k).
(** the loss of a validation set; the mean over the batches of the means over their samples *)
Definition mean_loss (loss : nat -> list N -> N) (data : list (list N)) : N :=
  f32div (fold_left (fun s (p : nat * list N) => f32add s (loss (fst p) (snd p))) (index 0 data) 0%N) (f32ofN (N.of_nat (length data))).
Definition epoch_mean (loss : nat -> nat -> list N -> N) (batches : list (list (list N))) : N :=
  f32div (fold_left (fun s (p : nat * list (list N)) => f32add s (mean_loss (loss (fst p)) (snd p))) (index 0 batches) 0%N) (f32ofN (N.of_nat (length batches))).
(** what the metrics say after e epochs: the lists have one entry per epoch; best_val_loss and the count of epochs without improvement follow from
    the validation losses; best_epoch is the epoch of the best loss; patience was never used up before the last epoch *)
Record tracked (c : vcfg) (m : metrics) (e : nat) : Prop := {
  t_len : length (val_losses m) = e /\ length (train_losses m) = e /\ length (kl_losses m) = e /\ length (recon_losses m) = e;
  t_best : best_val_loss m = best_after (c_delta c) f_max (val_losses m);
  t_stale : without_improvement m = stale_after (c_delta c) f_max 0 (val_losses m);
  t_epoch : (best_epoch m = 0%Z /\ best_val_loss m = f_max /\ without_improvement m = Z.of_nat e) \/
            (exists k, best_epoch m = Z.of_nat k /\ nth_error (val_losses m) k = Some (best_val_loss m) /\ (without_improvement m = Z.of_nat e - Z.of_nat k - 1)%Z);
  t_prefix : forall j, 0 < j < e -> (stale_after (c_delta c) f_max 0 (firstn j (val_losses m)) < c_patience c)%Z }.
(** the losses in the metrics are those of the one network [v], epoch after epoch *)
Definition trained_on (expf logf : sf -> sf) (gauss : N -> nat -> N) (pgauss : N -> nat -> N -> N -> N) (v : vae) (ts vs : list (list N)) (rt : nat -> nat -> nat -> N) (rv : nat -> nat -> N) (m : metrics) : Prop :=
  let total := total_loss expf logf gauss pgauss in
  let bs := cut (N.to_nat (size_of_int (c_batch (vcf v)))) ts in let n := length (val_losses m) in
  train_losses m = map (fun e => epoch_mean (fun b i x => total v x (rt e b i)) bs) (seq 0 n) /\
  kl_losses m = map (fun e => epoch_mean (fun b i x => kl_loss expf logf v x) bs) (seq 0 n) /\
  recon_losses m = map (fun e => epoch_mean (fun b i x => recon_loss expf logf gauss pgauss v x (rt e b i)) bs) (seq 0 n) /\
  val_losses m = map (fun e => mean_loss (fun i x => total v x (rv e i)) vs) (seq 0 n).
(** ** interpolation and the loss of train() *)
(** coordinatewise (1 - alpha) a + alpha b *)
Definition blended (alpha : N) (n : nat) (a b : list N) : list N := map (fun i => f32add (f32mul (f32sub f_one alpha) (nth i a 0%N)) (f32mul alpha (nth i b 0%N))) (seq 0 n).
(** what the decoder makes of the blend of z1 and, when use_interpolation is set, the interpolation network's answer for (z1, z2), else z2 *)
Definition interpolated (expf : sf -> sf) (v : vae) (z1 z2 : list N) (alpha : N) : list N :=
  decoded expf v (blended alpha (latent_dim v) z1 (if c_interp (vcf v) then network (params (itp v)) (acts (itp v)) (z1 ++ z2) else z2)).
(** mean squared distance of the first coordinates of y to the midpoint of z1 and z2 *)
Definition midpoint_loss (lat : nat) (z1 z2 y : list N) : N :=
  f32div (fold_left (fun s i => let diff := f32sub (nth i y 0%N) (f32mul f_half (f32add (nth i z1 0%N) (nth i z2 0%N))) in f32add s (f32mul diff diff)) (seq 0 lat) 0%N) (f32ofN (N.of_nat lat)).
Definition legacy_loss (expf logf : sf -> sf) (gauss : N -> nat -> N) (pgauss : N -> nat -> N -> N -> N) (v : vae) (x : list N) (q : tdraw) : N :=
  let total := total_loss expf logf gauss pgauss v x (t_r q) in
  if c_interp (vcf v) then
    let z s := map (drawn expf gauss pgauss (c_sampling (vcf v)) s (fst (encoded logf v x)) (snd (encoded logf v x))) (seq 0 (latent_dim v)) in
    let z1 := z (engine_seed (t_q1 q) (t_q0 q)) in let z2 := z (engine_seed (t_q2 q + 1) 0) in
    f32add total (f32mul (c_weight (vcf v)) (midpoint_loss (latent_dim v) z1 z2 (interpolated expf v z1 z2 f_half)))
  else total.
