(** Model of VC = src/rad_ml/research/variational_autoencoder.cpp, class VariationalAutoencoder<float>
    (VH = include/rad_ml/research/variational_autoencoder.hpp), on top of PNN_Model.  A float is its 32-bit pattern (NaN results are the one
    pattern 7FC00000).  std::exp, std::log and std::tanh of floats are parameters, std::sqrt is IEEE's.  [gauss s i] is the i-th number a
    fresh normal_distribution<float>(0, 1) takes from a fresh std::mt19937 seeded with s < 2^32, [pgauss s i m sd] the i-th number when
    a new normal_distribution(m, sd) is made for each.  What the member engine rng_ answers is an input of each call.
    Sizes are below 2^63 and the products of sizes do not wrap; statistics counters are unbounded.  A call that throws is recorded as the
    exception alone; std::length_error is E_bad_alloc.  Left out: logging; the optimiser's moments, step counter and learning rate
    (VC:756-780, 930-1000), which no function reads back; weight_decay, dropout_rate, the checkpoint and learning rate decay options,
    the Adam parameters and loss_type, which no defined function reads; trainBatched, saveCheckpoint and loadCheckpoint,
    which are declared and not defined. *)
From Coq Require Import List NArith ZArith Bool Arith SpecFloat.
Import ListNotations.
From Verif Require Import Outcome Words Floats Bits_Model MBP_Model PNN_Model Residual_Model.
Local Open Scope N_scope.
Local Open Scope outcome_scope.

(** ** float constants and functions *)
Definition f_one : N := 1065353216.
Definition f_two : N := 1073741824.
Definition f_half : N := 1056964608.
Definition f_ten : N := 1092616192.
Definition f_mten : N := 3240099840.
Definition f_slope : N := 1008981770. (* T(0.01) *)
Definition f_eps8 : N := 841731191.   (* T(1e-8) *)
Definition f_eps6 : N := 897988541.   (* T(1e-6) *)
Definition f_max : N := 2139095039.   (* std::numeric_limits<float>::max() *)
Definition f32abs (x : N) : N := wrap 31 x.
Definition f32neg (x : N) : N := N.lxor (wrap 32 x) 2147483648.
Definition f32lt (a b : N) : bool := flt (sf32 a) (sf32 b).
Definition f32ge0 (a : N) : bool := fge (sf32 a) (S754_zero false).
Definition lib (f : sf -> sf) (x : N) : N := bits32 (f (sf32 x)).
Definition f32sqrt (x : N) : N := bits32 (SFsqrt 24 128 (sf32 x)).
(* std::min(a, b), std::max(a, b) *)
Definition f32min (a b : N) : N := if f32lt b a then b else a.
Definition f32max (a b : N) : N := if f32lt a b then b else a.

(* VH:38-43 *)
Inductive sampling := STANDARD | REPARAMETERIZED | IMPORTANCE | ADVERSARIAL.
(* VH:81-116, the options that are read, and latent_dim; [c_dir]: the object whose memory checkpoint_dir's characters are in *)
Record vcfg := mkVcfg { c_latent : N; c_beta : N; c_interp : bool; c_weight : N; c_batch : Z; c_epochs : Z;
  c_split : N; c_patience : Z; c_delta : N; c_sampling : sampling; c_dir : N }.
Definition owned (c : vcfg) (self : N) : vcfg :=
  mkVcfg (c_latent c) (c_beta c) (c_interp c) (c_weight c) (c_batch c) (c_epochs c) (c_split c) (c_patience c) (c_delta c) (c_sampling c) self.
(* VH:68-76 *)
Record metrics := mkMet { train_losses : list N; val_losses : list N; kl_losses : list N; recon_losses : list N;
  best_val_loss : N; best_epoch : Z; without_improvement : Z }.
Definition new_metrics : metrics := mkMet [] [] [] [] f_max 0 0.
(* VH:366-398; [self] is the address of the object *)
Record vae := mkVae { self : N; enc : pnn; dec : pnn; itp : pnn; input_dim : nat; latent_dim : nat; hidden : list nat;
  vlevel : plevel; vcf : vcfg; vmetrics : metrics; own : stats }.
Definition with_enc (v : vae) (s : pnn) : vae := mkVae (self v) s (dec v) (itp v) (input_dim v) (latent_dim v) (hidden v) (vlevel v) (vcf v) (vmetrics v) (own v).
Definition with_dec (v : vae) (s : pnn) : vae := mkVae (self v) (enc v) s (itp v) (input_dim v) (latent_dim v) (hidden v) (vlevel v) (vcf v) (vmetrics v) (own v).
Definition with_itp (v : vae) (s : pnn) : vae := mkVae (self v) (enc v) (dec v) s (input_dim v) (latent_dim v) (hidden v) (vlevel v) (vcf v) (vmetrics v) (own v).
Definition with_metrics (v : vae) (m : metrics) : vae := mkVae (self v) (enc v) (dec v) (itp v) (input_dim v) (latent_dim v) (hidden v) (vlevel v) (vcf v) m (own v).
Definition with_own (v : vae) (t : stats) : vae := mkVae (self v) (enc v) (dec v) (itp v) (input_dim v) (latent_dim v) (hidden v) (vlevel v) (vcf v) (vmetrics v) t.
Definition with_cfg (v : vae) (c : vcfg) : vae := mkVae (self v) (enc v) (dec v) (itp v) (input_dim v) (latent_dim v) (hidden v) (vlevel v) c (vmetrics v) (own v).

Fixpoint omap {A B} (f : A -> outcome B) (l : list A) : outcome (list B) :=
  match l with [] => Ret [] | x :: l => y <- f x ;; r <- omap f l ;; Ret (y :: r) end.
Fixpoint ofold {A B} (f : B -> A -> outcome B) (l : list A) (b : B) : outcome B :=
  match l with [] => Ret b | x :: l => b <- f b x ;; ofold f l b end.
(* operator[] of a vector *)
Definition at_ {A} (l : list A) (i : nat) : outcome A := match nth_error l i with Some x => Ret x | None => UB UB_array_index end.

Section Lib.
Variables (expf logf tanhf : sf -> sf) (gauss : N -> nat -> N) (pgauss : N -> nat -> N -> N -> N).

(** ** construction *)
(* VC:101-106, 129-134: LeakyReLU *)
Definition leaky (x : N) : N := if fgt (sf32 x) (S754_zero false) then wrap 32 x else f32mul f_slope x.
(* VC:108 *)
Definition linear (x : N) : N := wrap 32 x.
(* VC:136-137 *)
Definition sigmoid (x : N) : N := f32div f_one (f32add f_one (lib expf (f32neg x))).
(* VC:170 *)
Definition tanh32 (x : N) : N := lib tanhf x.
(* the activation functions of a network with n layers of weights: h for all but the last, o for the last *)
Definition activate (s : pnn) (h o : N -> N) : outcome pnn :=
  let n := (length (sizes s) - 2)%nat in
  s <- ofold (fun s i => setActivationFunction s i h) (seq 0 n) s ;; setActivationFunction s n o.
(* VC:85-110; [init] are the answers of the weight distribution *)
Definition initializeEncoder (inp lat : nat) (hid : list nat) (lv : plevel) (init : nat -> nat -> nat -> N) : outcome pnn :=
  s <- pnn_new (inp :: hid ++ [2 * lat]%nat) lv init ;; activate s leaky linear.
(* VC:113-139 *)
Definition initializeDecoder (inp lat : nat) (hid : list nat) (lv : plevel) (init : nat -> nat -> nat -> N) : outcome pnn :=
  s <- pnn_new (lat :: rev hid ++ [inp]) lv init ;; activate s leaky sigmoid.
(* VC:142-173 *)
Definition initializeInterpolator (lat : nat) (hid : list nat) (lv : plevel) (init : nat -> nat -> nat -> N) : outcome pnn :=
  let mid := match hid with [] => lat | _ => nth (Nat.div (length hid) 2) hid O end in
  s <- pnn_new [2 * lat; mid; lat]%nat lv init ;; activate s tanh32 linear.
(* VC:15-33; i1, i2, i3 are the random weights of the three networks; the config is copied *)
Definition vae_new (addr : N) (inp lat : nat) (hid : list nat) (lv : plevel) (c : vcfg) (i1 i2 i3 : nat -> nat -> nat -> N) : outcome vae :=
  e <- initializeEncoder inp lat hid lv i1 ;;
  d <- initializeDecoder inp lat hid lv i2 ;;
  i <- initializeInterpolator lat hid lv i3 ;;
  Ret (mkVae addr e d i inp lat hid lv (owned c addr) new_metrics (mkStats 0 0 0)).
(* VC:36-55; the networks' copy constructors copy every member (PN:132-170); the metrics are those of a new object *)
Definition vae_copy (addr : N) (o : vae) : vae :=
  mkVae addr (enc o) (dec o) (itp o) (input_dim o) (latent_dim o) (hidden o) (vlevel o) (owned (vcf o) addr) new_metrics (own o).
(* VC:58-82; no self-assignment.  The metrics stay *)
Definition vae_assign (v o : vae) : vae :=
  mkVae (self v) (enc o) (dec o) (itp o) (input_dim o) (latent_dim o) (hidden o) (vlevel o) (owned (vcf o) (self v)) (vmetrics v) (own o).
(* VH:319-323 *)
Definition setConfig (v : vae) (c : vcfg) : vae := with_cfg v (owned c (self v)).
(* VH:331, 338 *)
Definition getLatentDim (v : vae) : nat := latent_dim v.
Definition getInputDim (v : vae) : nat := input_dim v.
(* VH:159, the default destructor: the string's characters are released *)
Definition destroy (v : vae) : outcome unit := if c_dir (vcf v) =? self v then Ret tt else UB UB_bad_free.

(** ** the passes *)
(* VC:427-439 *)
Definition applyLogarithmics (x : list N) : list N :=
  map (fun a => let l := lib logf (f32add f_one (f32abs a)) in if f32ge0 a then l else f32neg l) x.
(* VC:442-455 *)
Definition applyInverseLogarithmics (x : list N) : list N :=
  map (fun a => let e := f32sub (lib expf (f32abs a)) f_one in if f32ge0 a then e else f32neg e) x.
(* VC:458-481 *)
Definition applyStandardization (x : list N) : list N :=
  match x with
  | [] => x
  | _ =>
    let n := f32ofN (N.of_nat (length x)) in
    let mean := f32div (fold_left f32add x 0) n in
    let variance := f32div (fold_left (fun s a => f32add s (f32mul (f32sub a mean) (f32sub a mean))) x 0) n in
    let sd := f32sqrt (f32add variance f_eps8) in
    map (fun a => f32div (f32sub a mean) sd) x
  end.
(* VC:484-490 *)
Definition applyInverseStandardization (x : list N) : list N := x.
(* VC:196-199 *)
Definition clamp_log_var (x : N) : N := f32max f_mten (f32min f_ten x).
(* VC:176-201; [d]: the answers for the encoder's votes *)
Definition encode (v : vae) (x : list N) (rad : sf) (d : nat -> nat -> act_draw) : outcome (list N * list N * vae) :=
  r <- forward (enc v) (applyStandardization (applyLogarithmics x)) rad d ;;
  p <- omap (fun i => m <- at_ (fst r) i ;; l <- at_ (fst r) (i + latent_dim v)%nat ;; Ret (m, l)) (seq 0 (latent_dim v)) ;;
  Ret (map fst p, map clamp_log_var (map snd p), with_enc v (snd r)).
(* VC:207, 304: the engine is seeded with 32 bits of the seed; [r]: what rng_() answers, asked only for seed 0 *)
Definition engine_seed (seed r : N) : N := wrap 32 (if seed =? 0 then r else seed).
(* VC:204-234 *)
Definition sample (v : vae) (mean log_var : list N) (seed r : N) : outcome (list N) :=
  let s := engine_seed seed r in
  omap (fun i =>
    m <- at_ mean i ;; l <- at_ log_var i ;;
    let sigma := lib expf (f32mul f_half l) in
    Ret (match c_sampling (vcf v) with
         | STANDARD => pgauss s i m sigma
         | _ => f32add m (f32mul sigma (gauss s i))
         end)) (seq 0 (latent_dim v)).
(* VC:237-248 *)
Definition decode (v : vae) (z : list N) (rad : sf) (d : nat -> nat -> act_draw) : outcome (list N * vae) :=
  r <- forward (dec v) z rad d ;;
  Ret (applyInverseLogarithmics (applyInverseStandardization (fst r)), with_dec v (snd r)).
(* VC:602-634: one coordinate; n1, n2, n3: the answers of uniform_real_distribution(-0.01, 0.01) *)
Definition protect_one (a : N) (rad : sf) (n1 n2 n3 : N) : N * bool :=
  let hit := fgt rad (dlit 5 10) in
  let c1 := if hit then f32add a n1 else a in
  let c2 := if hit then f32add a n2 else a in
  let c3 := if hit then f32add a n3 else a in
  let r :=
    if f32lt (f32abs (f32sub c1 c2)) (f32abs (f32sub c1 c3)) then f32div (f32add c1 c2) f_two
    else if f32lt (f32abs (f32sub c1 c3)) (f32abs (f32sub c2 c3)) then f32div (f32add c1 c3) f_two
    else f32div (f32add c2 c3) f_two in
  (r, f32lt f_eps6 (f32abs (f32sub r a))).
(* VC:596-636 *)
Fixpoint protect_all (z : list N) (rad : sf) (n : nat -> N * N * N) (i : nat) (t : stats) : list N * stats :=
  match z with
  | [] => ([], t)
  | a :: z =>
    let '(n1, n2, n3) := n i in
    let '(r, moved) := protect_one a rad n1 n2 n3 in
    let t := if moved then mkStats (detected t + 1) (corrected t + 1) (uncorrectable t) else t in
    let '(z, t) := protect_all z rad n (S i) t in (r :: z, t)
  end.
Definition protectLatentVariables (v : vae) (z : list N) (rad : sf) (n : nat -> N * N * N) : list N * vae :=
  if fgt rad (dlit 1 10) then let '(z, t) := protect_all z rad n 0 (own v) in (z, with_own v t) else (z, v).
(* VC:251-265 *)
Definition vforward (v : vae) (x : list N) (rad : sf) (de dd : nat -> nat -> act_draw) (r : N) (n : nat -> N * N * N) : outcome (list N * vae) :=
  p <- encode v x rad de ;;
  let '(mean, log_var, v) := p in
  z <- sample v mean log_var 0 r ;;
  let '(z, v) := protectLatentVariables v z rad n in
  decode v z rad dd.
(* VC:268-297 *)
Definition blend (alpha a b : N) : N := f32add (f32mul (f32sub f_one alpha) a) (f32mul alpha b).
Definition interpolate (v : vae) (z1 z2 : list N) (alpha : N) (rad : sf) (di dd : nat -> nat -> act_draw) : outcome (list N * vae) :=
  if c_interp (vcf v) then
    r <- forward (itp v) (z1 ++ z2) rad di ;;
    z <- omap (fun i => a <- at_ z1 i ;; b <- at_ (fst r) i ;; Ret (blend alpha a b)) (seq 0 (length (fst r))) ;;
    decode (with_itp v (snd r)) z rad dd
  else
    z <- omap (fun i => a <- at_ z1 i ;; b <- at_ z2 i ;; Ret (blend alpha a b)) (seq 0 (latent_dim v)) ;;
    decode v z rad dd.
(* VC:300-323 *)
Fixpoint generate_from (v : vae) (k : nat) (i : nat) (s : N) (rad : sf) (dd : nat -> nat -> nat -> act_draw) : outcome (list (list N) * vae) :=
  match k with
  | O => Ret ([], v)
  | S k =>
    r <- decode v (map (fun j => gauss s (i * latent_dim v + j)%nat) (seq 0 (latent_dim v))) rad (dd i) ;;
    q <- generate_from (snd r) k (S i) s rad dd ;; Ret (fst r :: fst q, snd q)
  end.
Definition generate (v : vae) (k : nat) (rad : sf) (seed r : N) (dd : nat -> nat -> nat -> act_draw) : outcome (list (list N) * vae) :=
  generate_from v k 0 (engine_seed seed r) rad dd.

(** ** losses *)
(* VC:493-504 *)
Definition computeKLDivergence (v : vae) (mean log_var : list N) : outcome N :=
  ofold (fun s i => m <- at_ mean i ;; l <- at_ log_var i ;;
    Ret (f32add s (f32mul f_half (f32sub (f32sub (f32add (f32mul m m) (lib expf l)) l) f_one)))) (seq 0 (latent_dim v)) 0.
(* VC:507-519 *)
Definition computeReconstructionLoss (x y : list N) : outcome N :=
  s <- ofold (fun s i => a <- at_ x i ;; b <- at_ y i ;; Ret (f32add s (f32mul (f32sub a b) (f32sub a b)))) (seq 0 (length x)) 0 ;;
  Ret (f32div s (f32ofN (N.of_nat (length x)))).
(* VC:522-536 *)
Definition computeInterpolationLoss (v : vae) (z1 z2 y : list N) : outcome N :=
  s <- ofold (fun s i => a <- at_ z1 i ;; b <- at_ z2 i ;; c <- at_ y i ;;
    let diff := f32sub c (f32mul f_half (f32add a b)) in Ret (f32add s (f32mul diff diff))) (seq 0 (latent_dim v)) 0 ;;
  Ret (f32div s (f32ofN (N.of_nat (latent_dim v)))).
(* VC:398-424; q1, q2: what rng_() answers for the two seeds, q0: what it answers inside sample() when q1 is 0 *)
Definition vcalculateLoss (v : vae) (x y mean log_var : list N) (q1 q0 q2 : N) : outcome (N * vae) :=
  recon <- computeReconstructionLoss x y ;;
  kl <- computeKLDivergence v mean log_var ;;
  let total := f32add recon (f32mul (c_beta (vcf v)) kl) in
  if c_interp (vcf v) then
    z1 <- sample v mean log_var q1 q0 ;;
    z2 <- sample v mean log_var (q2 + 1) 0 ;;
    r <- interpolate v z1 z2 f_half (S754_zero false) no_draws no_draws ;;
    il <- computeInterpolationLoss v z1 z2 (fst r) ;;
    Ret (f32add total (f32mul (c_weight (vcf v)) il), snd r)
  else Ret (total, v).

(** ** training *)
(* VC:350-351, 1142-1143: the ranges [start, end) of indices; an int batch size becomes a size_t *)
Definition size_of_int (z : Z) : N := Z.to_N (z mod 2 ^ 64).
Fixpoint ranges (fuel : nat) (n bs start : N) : outcome (list (N * N)) :=
  match fuel with
  | O => OutOfFuel
  | S f => if start <? n then r <- ranges f n bs (wrap 64 (start + bs)) ;; Ret ((start, N.min (wrap 64 (start + bs)) n) :: r) else Ret []
  end.
Definition range (p : N * N) : list nat := seq (N.to_nat (fst p)) (N.to_nat (snd p - fst p)).
(* what rng_ answers while one sample is processed by train() *)
Record tdraw := mkTD { t_r : N; t_q1 : N; t_q0 : N; t_q2 : N }.
(* VC:355-370; updateWeights (VC:539-593) changes nothing *)
Definition train_sample (v : vae) (x : list N) (q : tdraw) : outcome (N * vae) :=
  p <- encode v x (S754_zero false) no_draws ;;
  let '(mean, log_var, v) := p in
  z <- sample v mean log_var 0 (t_r q) ;;
  y <- decode v z (S754_zero false) no_draws ;;
  vcalculateLoss (snd y) x (fst y) mean log_var (t_q1 q) (t_q0 q) (t_q2 q).
(* VC:349-374: one batch; [idx]: the shuffled indices *)
Definition train_batch (data : list (list N)) (idx : list nat) (q : nat -> tdraw) (sv : N * vae) (p : N * N) : outcome (N * vae) :=
  b <- ofold (fun bv i => k <- at_ idx i ;; x <- at_ data k ;; r <- train_sample (snd bv) x (q i) ;; Ret (f32add (fst bv) (fst r), snd r))
             (range p) (0, snd sv) ;;
  Ret (f32add (fst sv) (f32div (fst b) (f32ofN (snd p - fst p))), snd b).
(* VC:341-379; [idx e] and [q e]: the shuffle and the answers of epoch e *)
Fixpoint train_epochs (fuel : nat) (v : vae) (data : list (list N)) (bs : N) (idx : nat -> list nat) (q : nat -> nat -> tdraw) (e n : nat) (total : N) : outcome (N * vae) :=
  match n with
  | O => Ret (total, v)
  | S n =>
    rs <- ranges fuel (N.of_nat (length data)) bs 0 ;;
    r <- ofold (train_batch data (idx e) (q e)) rs (0, v) ;;
    if bs =? 0 then UB UB_div_zero
    else train_epochs fuel (snd r) data bs idx q (S e) n (f32div (fst r) (f32ofN (N.of_nat (length data) / bs + 1)))
  end.
(* VC:326-382; -1 stands for the configured value; the learning rate has no effect *)
Definition vtrain (fuel : nat) (v : vae) (data : list (list N)) (epochs batch : Z) (idx : nat -> list nat) (q : nat -> nat -> tdraw) : outcome (N * vae) :=
  let epochs := if (epochs =? -1)%Z then c_epochs (vcf v) else epochs in
  let batch := if (batch =? -1)%Z then c_batch (vcf v) else batch in
  train_epochs fuel v data (size_of_int batch) idx q O (Z.to_nat epochs) 0.
(* VC:385-395; [d i]: the answers while sample i is processed *)
Definition no_noise : nat -> N * N * N := fun _ => (0, 0, 0).
Definition vevaluate (v : vae) (data : list (list N)) (r : nat -> N) : outcome (N * vae) :=
  q <- ofold (fun tv p => y <- vforward (snd tv) (snd p) (S754_zero false) no_draws no_draws (r (fst p)) no_noise ;;
                          l <- computeReconstructionLoss (snd p) (fst y) ;; Ret (f32add (fst tv) l, snd y)) (index O data) (0, v) ;;
  Ret (f32div (fst q) (f32ofN (N.of_nat (length data))), snd q).
(* VC:824-837, 857-863, 1012-1021: the losses of one sample: reconstruction, KL, total *)
Definition pass (v : vae) (x : list N) (r : N) : outcome (N * N * N * list N * list N * list N * vae) :=
  p <- encode v x (S754_zero false) no_draws ;;
  let '(mean, log_var, v) := p in
  z <- sample v mean log_var 0 r ;;
  y <- decode v z (S754_zero false) no_draws ;;
  recon <- computeReconstructionLoss x (fst y) ;;
  kl <- computeKLDivergence (snd y) mean log_var ;;
  Ret (recon, kl, f32add recon (f32mul (c_beta (vcf v)) kl), mean, log_var, fst y, snd y).
(* VC:1003-1034: total_loss, kl_divergence, reconstruction_loss, latent_dim, beta *)
Definition evaluateComprehensive (v : vae) (data : list (list N)) (r : nat -> N) : outcome (N * N * N * N * N * vae) :=
  q <- ofold (fun a p => let '(tl, tk, tr, v) := a in
                x <- pass v (snd p) (r (fst p)) ;;
                let '(recon, kl, total, _, _, _, v) := x in Ret (f32add tl total, f32add tk kl, f32add tr recon, v)) (index O data) (0, 0, 0, v) ;;
  let '(tl, tk, tr, v) := q in
  let n := f32ofN (N.of_nat (length data)) in
  Ret (f32div tl n, f32div tk n, f32div tr n, f32ofN (N.of_nat (latent_dim v)), c_beta (vcf v), v).
(* VC:901-914 *)
Definition computeEncoderGradients (v : vae) (mean log_var : list N) : outcome (list N) :=
  a <- omap (fun i => at_ mean i) (seq 0 (latent_dim v)) ;;
  b <- omap (fun i => l <- at_ log_var i ;; Ret (f32mul f_half (f32sub (lib expf l) f_one))) (seq 0 (latent_dim v)) ;;
  Ret (a ++ b).
(* VC:917-927 *)
Definition computeDecoderGradients (v : vae) (x y : list N) : outcome (list N) :=
  omap (fun i => b <- at_ y i ;; a <- at_ x i ;; Ret (f32div (f32mul f_two (f32sub b a)) (f32ofN (N.of_nat (input_dim v))))) (seq 0 (input_dim v)).
(* VC:1112-1133; [idx]: the shuffled indices.  More training samples than there are samples: reserve() throws std::length_error *)
Definition splitTrainValidation (v : vae) (data : list (list N)) (idx : list nat) : outcome (list (list N) * list (list N)) :=
  k <- to_size (sf32 (f32mul (f32ofN (N.of_nat (length data))) (f32sub f_one (c_split (vcf v))))) ;;
  if N.of_nat (length data) <? k then Throw E_bad_alloc
  else
    l <- omap (at_ data) idx ;;
    Ret (firstn (N.to_nat k) l, skipn (N.to_nat k) l).
(* VC:1137-1155 *)
Definition createBatches (fuel : nat) (data : list (list N)) (batch : Z) : outcome (list (list (list N))) :=
  rs <- ranges fuel (N.of_nat (length data)) (size_of_int batch) 0 ;; omap (fun p => omap (at_ data) (range p)) rs.
(* VC:822-844: one sample; the weight update (VC:930-1000) changes no network *)
Definition prod_sample (r : nat -> N) (a : N * N * N * vae) (p : nat * list N) : outcome (N * N * N * vae) :=
  let '(bl, bk, br, v) := a in
  x <- pass v (snd p) (r (fst p)) ;;
  let '(recon, kl, total, mean, log_var, y, v) := x in
  _ <- computeEncoderGradients v mean log_var ;;
  _ <- computeDecoderGradients v (snd p) y ;;
  Ret (f32add bl total, f32add bk kl, f32add br recon, v).
(* VC:817-849: one batch; [r b i]: what rng_() answers for sample i of batch b *)
Definition prod_batch (r : nat -> nat -> N) (a : N * N * N * vae) (p : nat * list (list N)) : outcome (N * N * N * vae) :=
  let '(el, ek, er, v) := a in
  q <- ofold (prod_sample (r (fst p))) (index O (snd p)) (0, 0, 0, v) ;;
  let '(bl, bk, br, v) := q in
  let n := f32ofN (N.of_nat (length (snd p))) in
  Ret (f32add el (f32div bl n), f32add ek (f32div bk n), f32add er (f32div br n), v).
(* VC:857-865 *)
Definition val_sample (r : nat -> N) (a : N * vae) (p : nat * list N) : outcome (N * vae) :=
  x <- pass (snd a) (snd p) (r (fst p)) ;;
  let '(_, _, total, _, _, _, v) := x in Ret (f32add (fst a) total, v).
(* VC:868-881 *)
Definition note_epoch (c : vcfg) (m : metrics) (e : nat) (tl vl kl rl : N) : metrics :=
  let better := f32lt vl (f32sub (best_val_loss m) (c_delta c)) in
  mkMet (train_losses m ++ [tl]) (val_losses m ++ [vl]) (kl_losses m ++ [kl]) (recon_losses m ++ [rl])
        (if better then vl else best_val_loss m) (if better then Z.of_nat e else best_epoch m)
        (if better then 0 else without_improvement m + 1)%Z.
(* VC:806-895; rt, rv: what rng_() answers in the training and validation phase of each epoch *)
Fixpoint prod_epochs (fuel : nat) (v : vae) (train_set val_set : list (list N)) (rt : nat -> nat -> nat -> N) (rv : nat -> nat -> N) (e n : nat) : outcome vae :=
  match n with
  | O => Ret v
  | S n =>
    bs <- createBatches fuel train_set (c_batch (vcf v)) ;;
    q <- ofold (prod_batch (rt e)) (index O bs) (0, 0, 0, v) ;;
    let '(el, ek, er, v) := q in
    let k := f32ofN (N.of_nat (length bs)) in
    w <- ofold (val_sample (rv e)) (index O val_set) (0, v) ;;
    let vl := f32div (fst w) (f32ofN (N.of_nat (length val_set))) in
    let v := snd w in
    let m := note_epoch (vcf v) (vmetrics v) e (f32div el k) vl (f32div ek k) (f32div er k) in
    let v := with_metrics v m in
    if (c_patience (vcf v) <=? without_improvement m)%Z then Ret v else prod_epochs fuel v train_set val_set rt rv (S e) n
  end.
(* VC:783-898; returns the metrics it leaves in the object *)
Definition trainProduction (fuel : nat) (v : vae) (train_data val_data : list (list N)) (idx : list nat) (rt : nat -> nat -> nat -> N) (rv : nat -> nat -> N) : outcome (metrics * vae) :=
  let v := with_metrics v new_metrics in
  s <- (match val_data with [] => splitTrainValidation v train_data idx | _ => Ret (train_data, val_data) end) ;;
  v <- prod_epochs fuel v (fst s) (snd s) rt rv O (Z.to_nat (c_epochs (vcf v))) ;;
  Ret (vmetrics v, v).

(** ** radiation and statistics *)
(* VC:639-647; what the generators of the three networks answer *)
Definition vapplyRadiationEffects (v : vae) (rad : sf) (w1 w2 w3 : list wdraw) (b1 b2 b3 : list bdraw) : outcome vae :=
  e <- applyRadiationEffects (enc v) rad w1 b1 ;;
  d <- applyRadiationEffects (dec v) rad w2 b2 ;;
  i <- applyRadiationEffects (itp v) rad w3 b3 ;;
  Ret (with_itp (with_dec (with_enc v e) d) i).
(* VC:650-669 *)
Definition vgetErrorStats (v : vae) : N * N :=
  (detected (own v) + (fst (getErrorStats (enc v)) + fst (getErrorStats (dec v))) + fst (getErrorStats (itp v)),
   corrected (own v) + (snd (getErrorStats (enc v)) + snd (getErrorStats (dec v))) + snd (getErrorStats (itp v))).
(* VC:672-683 *)
Definition vresetErrorStats (v : vae) : vae :=
  with_itp (with_dec (with_enc (with_own v (mkStats 0 0 0)) (resetErrorStats (enc v))) (resetErrorStats (dec v))) (resetErrorStats (itp v)).

(** ** files *)
(* the bytes of a VAEConfig object and of an optimiser state object *)
Variables (cfg_bytes : vcfg -> list N) (cfg_of : list N -> vcfg).
(* "RAD_ML_VAE_V1.0" *)
Definition header : list N := [82; 65; 68; 95; 77; 76; 95; 86; 65; 69; 95; 86; 49; 46; 48].
Definition dims_bytes (v : vae) : list N :=
  le 8 (N.of_nat (input_dim v)) ++ le 8 (N.of_nat (latent_dim v)) ++ le 8 (N.of_nat (length (hidden v))) ++ concat (map (fun h => le 8 (N.of_nat h)) (hidden v)).
(* VC:686-716: no weight is written; [opens]: the file can be opened; the disk takes everything *)
Definition vsaveToFile (v : vae) (opens : bool) : bool * option (list N) :=
  if opens then (true, Some (dims_bytes v ++ cfg_bytes (vcf v))) else (false, None).
(* VC:1037-1067; [opt]: the bytes of the optimiser state *)
Definition saveModel (v : vae) (opens : bool) (opt : list N) : bool * option (list N) :=
  if opens then (true, Some (header ++ dims_bytes v ++ cfg_bytes (vcf v) ++ opt)) else (false, None).
(* istream::read of k bytes over [old]: the new bytes and the stream, which fails for good when the file is too short *)
Definition sread (k : nat) (s : list N * bool) (old : list N) : list N * (list N * bool) :=
  if snd s then
    if Nat.leb k (length (fst s)) then (firstn k (fst s), (skipn k (fst s), true))
    else (fst s ++ skipn (length (fst s)) old, ([], false))
  else (old, s).
(* VC:719-753, 1086-1105 (without the optimiser state): dimensions, configuration, new networks with random weights i1, i2, i3.
   [alloc n]: an allocation of n bytes succeeds; the networks' own allocations do.  A count that was not read is indeterminate *)
Definition load_dims (v : vae) (s : list N * bool) (alloc : N -> bool) (i1 i2 i3 : nat -> nat -> nat -> N) : outcome (bool * vae) :=
  let '(b1, s) := sread 8 s (le 8 (N.of_nat (input_dim v))) in
  let '(b2, s) := sread 8 s (le 8 (N.of_nat (latent_dim v))) in
  let inp := N.to_nat (unle b1) in let lat := N.to_nat (unle b2) in
  let '(b3, s) := sread 8 s [] in
  if negb (snd s) then UB UB_uninit
  else
    let count := unle b3 in
    let set_ h c e d i := mkVae (self v) e d i inp lat h (vlevel v) c (vmetrics v) (own v) in
    if negb (alloc (8 * count)) then Ret (false, set_ (hidden v) (vcf v) (enc v) (dec v) (itp v))
    else
      let n := N.to_nat count in
      let resized := firstn n (hidden v ++ repeat O n) in
      let '(b4, s) := sread (8 * n) s (concat (map (fun h => le 8 (N.of_nat h)) resized)) in
      let hid := map (fun b => N.to_nat (unle b)) (chunks 8 n b4) in
      let '(b5, s) := sread (length (cfg_bytes (vcf v))) s (cfg_bytes (vcf v)) in
      e <- initializeEncoder inp lat hid (vlevel v) i1 ;;
      d <- initializeDecoder inp lat hid (vlevel v) i2 ;;
      i <- initializeInterpolator lat hid (vlevel v) i3 ;;
      Ret (true, set_ hid (cfg_of b5) e d i).
(* VC:719-753; [file]: what the file holds, if it can be opened *)
Definition vloadFromFile (v : vae) (file : option (list N)) (alloc : N -> bool) (i1 i2 i3 : nat -> nat -> nat -> N) : outcome (bool * vae) :=
  match file with None => Ret (false, v) | Some b => load_dims v (b, true) alloc i1 i2 i3 end.
(* VC:1070-1109: fourteen characters are read and compared with the fifteen of the header *)
Definition loadModel (v : vae) (file : option (list N)) (alloc : N -> bool) (i1 i2 i3 : nat -> nat -> nat -> N) : outcome (bool * vae) :=
  match file with
  | None => Ret (false, v)
  | Some b =>
    let '(h, s) := sread 14 (b, true) (repeat 0 14) in
    if negb (str_eqb h header) then Ret (false, v) else load_dims v s alloc i1 i2 i3
  end.

(** ** histories of calls; an exception leaves the object as it was (up to the networks' check counters) *)
Inductive vop :=
| VForward (x : list N) (rad : sf) (de dd : nat -> nat -> act_draw) (r : N) (n : nat -> N * N * N)
| VEncode (x : list N) (rad : sf) (d : nat -> nat -> act_draw)
| VDecode (z : list N) (rad : sf) (d : nat -> nat -> act_draw)
| VInterpolate (z1 z2 : list N) (alpha : N) (rad : sf) (di dd : nat -> nat -> act_draw)
| VGenerate (k : nat) (rad : sf) (seed r : N) (dd : nat -> nat -> nat -> act_draw)
| VTrain (fuel : nat) (data : list (list N)) (epochs batch : Z) (idx : nat -> list nat) (q : nat -> nat -> tdraw)
| VProduction (fuel : nat) (train_data val_data : list (list N)) (idx : list nat) (rt : nat -> nat -> nat -> N) (rv : nat -> nat -> N)
| VEvaluate (data : list (list N)) (r : nat -> N)
| VComprehensive (data : list (list N)) (r : nat -> N)
| VConfig (c : vcfg)
| VRadiation (rad : sf) (w1 w2 w3 : list wdraw) (b1 b2 b3 : list bdraw)
| VReset.
Definition vstep (v : vae) (o : vop) : outcome vae :=
  let keep {A} (f : A -> vae) (r : outcome A) := match r with Throw _ => Ret v | Ret a => Ret (f a) | UB u => UB u | OutOfFuel => OutOfFuel end in
  match o with
  | VForward x rad de dd r n => keep snd (vforward v x rad de dd r n)
  | VEncode x rad d => keep snd (encode v x rad d)
  | VDecode z rad d => keep snd (decode v z rad d)
  | VInterpolate z1 z2 alpha rad di dd => keep snd (interpolate v z1 z2 alpha rad di dd)
  | VGenerate k rad seed r dd => keep snd (generate v k rad seed r dd)
  | VTrain fuel data epochs batch idx q => keep snd (vtrain fuel v data epochs batch idx q)
  | VProduction fuel train_data val_data idx rt rv => keep snd (trainProduction fuel v train_data val_data idx rt rv)
  | VEvaluate data r => keep snd (vevaluate v data r)
  | VComprehensive data r => keep snd (evaluateComprehensive v data r)
  | VConfig c => Ret (setConfig v c)
  | VRadiation rad w1 w2 w3 b1 b2 b3 => keep (fun v => v) (vapplyRadiationEffects v rad w1 w2 w3 b1 b2 b3)
  | VReset => Ret (vresetErrorStats v)
  end.
Fixpoint vrun (v : vae) (ops : list vop) : outcome vae := match ops with [] => Ret v | o :: ops => v <- vstep v o ;; vrun v ops end.
End Lib.
