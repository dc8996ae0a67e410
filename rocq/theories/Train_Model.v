(** Model of RAT = src/rad_ml/research/radiation_aware_training.cpp, class RadiationAwareTraining, for a ProtectedNeuralNetwork<float>
    (the network is PNN_Model.pnn; [mirror] is what getLayers() and getLayerMutable() give access to).  A stored float is its 32-bit
    pattern; probabilities, accuracies and criticalities are IEEE singles.  What the generator answers is an input, given by the
    place it is used for; expf is a parameter.  Sizes are below 2^64 and their products do not wrap.  Left out: logging, timing,
    the copy saveState() returns (it is empty and not used), the value of baseline_accuracy, which nothing reads (its passes are kept).
    The catch at RAT:271-274 is left out: the exception stays visible. *)
From Coq Require Import List NArith ZArith Bool Arith SpecFloat.
Import ListNotations.
From Verif Require Import Outcome Words Floats Bits_Model MBP_Model PNN_Model.
Local Open Scope N_scope.

(* sim/environment.hpp:20-32 *)
Inductive senv := EARTH | EARTH_ORBIT | ISS | MOON | MARS | SOLAR_FLARE | DEEP_SPACE | JUPITER | SAA | EXTREME | CUSTOM.
(* src/rad_ml/sim/environment.cpp:16-28, 74-80 *)
Definition getRadiationLevel (e : senv) : sf :=
  match e with
  | EARTH => dlit 1 100 | EARTH_ORBIT => dlit 2 10 | ISS => dlit 25 100 | MOON => dlit 4 10 | MARS => dlit 3 10 | SOLAR_FLARE => dlit 8 10
  | DEEP_SPACE => dlit 6 10 | JUPITER => dlit 85 100 | SAA => dlit 45 100 | EXTREME => dofZ 1 | CUSTOM => dlit 5 10
  end.
(* src/rad_ml/sim/environment.cpp:31-43, 82-88 *)
Definition getBitErrorRate (e : senv) : sf :=
  match e with
  | EARTH => dlit 1 (10 ^ 12) | EARTH_ORBIT => dlit 1 (10 ^ 8) | ISS => dlit 5 (10 ^ 8) | MOON => dlit 1 (10 ^ 7) | MARS => dlit 8 (10 ^ 8)
  | SOLAR_FLARE => dlit 1 (10 ^ 6) | DEEP_SPACE => dlit 5 (10 ^ 7) | JUPITER => dlit 1 (10 ^ 5) | SAA => dlit 2 (10 ^ 7) | EXTREME => dlit 1 (10 ^ 4) | CUSTOM => dlit 1 (10 ^ 6)
  end.
(* src/rad_ml/sim/environment.cpp:46-58, 90-96 *)
Definition getExpectedMCUSize (e : senv) : Z :=
  match e with
  | EARTH => 1 | EARTH_ORBIT => 2 | ISS => 2 | MOON => 3 | MARS => 2 | SOLAR_FLARE => 4 | DEEP_SPACE => 3 | JUPITER => 5 | SAA => 3 | EXTREME => 8 | CUSTOM => 3
  end.
(* RAT:281-294 *)
Definition env_factor (e : senv) : sf :=
  match e with EARTH_ORBIT | ISS => slit 1 2 | MARS => sofZ 2 | JUPITER => sofZ 5 | EXTREME => sofZ 10 | _ => sofZ 1 end.

(** ** the trainer *)
(* radiation_aware_training.hpp:46-50, 143-150 *)
Record rat := mkRat { prob : sf; target : bool; env : senv; flips : Z; drop : sf; recovery : sf; crit : option (list (list (list sf))) }.
(* RAT:31-47 and the member initialisers *)
Definition rat_new (p : sf) (t : bool) (e : senv) : rat := mkRat p t e 0 (S754_zero false) (S754_zero false) None.
(* RAT:365-377 *)
Definition setBitFlipProbability (r : rat) (p : sf) : rat := mkRat p (target r) (env r) (flips r) (drop r) (recovery r) (crit r).
Definition setTargetCriticalWeights (r : rat) (t : bool) : rat := mkRat (prob r) t (env r) (flips r) (drop r) (recovery r) (crit r).
Definition setEnvironment (r : rat) (e : senv) : rat := mkRat (prob r) (target r) e (flips r) (drop r) (recovery r) (crit r).
Definition with_flips (r : rat) (n : Z) : rat := mkRat (prob r) (target r) (env r) n (drop r) (recovery r) (crit r).
Definition with_drop (r : rat) (d rc : sf) : rat := mkRat (prob r) (target r) (env r) (flips r) d rc (crit r).
Definition with_crit (r : rat) (c : list (list (list sf))) : rat := mkRat (prob r) (target r) (env r) (flips r) (drop r) (recovery r) (Some c).

(* RAT:360-363, utils/bit_manipulation.hpp:31-48; the distribution answers 0..31 *)
Definition flipBit (v bit : N) : N := N.lxor v (N.shiftl 1 bit).

(** ** injection *)
(** what the generator answers for the weight (l, i, j) and the bias (l, j) in one round: a number in [0,1) and a bit *)
Record idraw := mkID { wdr : nat -> nat -> nat -> sf * N; bdr : nat -> nat -> sf * N }.
(* RAT:312-325 *)
Definition weight_prob (r : rat) (l i j : nat) : sf :=
  let p := smul (prob r) (env_factor (env r)) in
  if target r then
    match crit r with
    | Some m => match get3 m l i j with Some c => smul p (sadd (sofZ 1) (smul (sofZ 5) c)) | None => p end
    | None => p
    end
  else p.
(* RAT:346 *)
Definition bias_prob (r : rat) : sf := smul (smul (prob r) (env_factor (env r))) (slit 1 2).
(* RAT:328-339, 346-352: one value and the count of this round *)
Definition strike_one (u : sf * N) (p : sf) (v : N) (n : Z) : N * Z :=
  if flt (fst u) p then (flipBit v (snd u), n + 1)%Z else (v, n).
(* RAT:310-341; the count of this round is unbounded here and checked when it is added *)
Fixpoint inject_row (r : rat) (d : idraw) (l i j : nat) (row : list N) (n : Z) : list N * Z :=
  match row with
  | [] => ([], n)
  | v :: row => let '(v, n) := strike_one (wdr d l i j) (weight_prob r l i j) v n in let '(row, n) := inject_row r d l i (S j) row n in (v :: row, n)
  end.
Fixpoint inject_rows (r : rat) (d : idraw) (l i : nat) (w : list (list N)) (n : Z) : list (list N) * Z :=
  match w with
  | [] => ([], n)
  | row :: w => let '(row, n) := inject_row r d l i O row n in let '(w, n) := inject_rows r d l (S i) w n in (row :: w, n)
  end.
(* RAT:343-355 *)
Fixpoint inject_bias (r : rat) (d : idraw) (l j : nat) (b : list N) (n : Z) : list N * Z :=
  match b with
  | [] => ([], n)
  | v :: b => let '(v, n) := strike_one (bdr d l j) (bias_prob r) v n in let '(b, n) := inject_bias r d l (S j) b n in (v :: b, n)
  end.
(* RAT:302-356 *)
Fixpoint inject_layers (r : rat) (d : idraw) (l : nat) (m : list (list (list N) * list N)) (n : Z) : list (list (list N) * list N) * Z :=
  match m with
  | [] => ([], n)
  | (w, b) :: m =>
    let '(w, n) := inject_rows r d l O w n in
    let '(b, n) := inject_bias r d l O b n in
    let '(m, n) := inject_layers r d (S l) m n in ((w, b) :: m, n)
  end.
Local Open Scope outcome_scope.
(* RAT:278-359 *)
Definition injectRadiationEffects (r : rat) (s : pnn) (d : idraw) : outcome (rat * pnn) :=
  let '(m, n) := inject_layers r d O (mirror s) 0%Z in
  n <- arith int32 n ;; total <- arith int32 (flips r + n) ;;
  Ret (with_flips r total, with_mirror s m).

(** ** criticality *)
(** what the generator answers for the k-th test of layer l: a row, a column and a bit *)
Definition cdraw := nat -> nat -> nat * nat * N.
Definition sone : sf := sofZ 1.
Definition neg (x : sf) : sf := SFopp x.
(* RAT:473 *)
Definition sigmoid (expf : sf -> sf) (x : sf) : sf := sdiv sone (sadd sone (expf (neg x))).
(* RAT:412-421 *)
Definition new_map (m : list (list (list N) * list N)) : list (list (list sf)) := map (fun p => map (map (fun _ => S754_zero false)) (fst p)) m.
(* RAT:433-439: static_cast<size_t>(total * 0.1f) *)
Definition tests_of (w : list (list N)) : outcome nat :=
  n <- to_size (smul (sofZ (Z.of_nat (fold_right (fun row t => length row + t)%nat O w))) (slit 1 10)) ;; Ret (N.to_nat (N.max 1 n)).
(* RAT:459-476: one test; the vectors are subscripted without a check *)
Definition test_weight (expf : sf -> sf) (c : list (list (list sf))) (s : pnn) (x y : list N) (base : N) (l i j : nat) (bit : N) : outcome (list (list (list sf)) * pnn) :=
  match get3 (map fst (mirror s)) l i j with
  | None => UB UB_out_of_bounds
  | Some original =>
    let hit := with_mirror s (upd (mirror s) l (fun p => (upd (fst p) i (fun row => upd row j (fun _ => flipBit original bit)), snd p))) in
    q <- calculateLoss hit x y ;;
    let impact := ssub (sf32 (fst q)) (sf32 base) in
    let back := with_mirror (snd q) (upd (mirror (snd q)) l (fun p => (upd (fst p) i (fun row => upd row j (fun _ => original)), snd p))) in
    match get3 c l i j with
    | None => UB UB_out_of_bounds
    | Some _ => Ret (put3 c l i j (sigmoid expf impact), back)
    end
  end.
(* RAT:456-476 *)
Fixpoint test_weights (expf : sf -> sf) (c : list (list (list sf))) (s : pnn) (x y : list N) (base : N) (l : nat) (ts : list (nat * nat * N)) : outcome (list (list (list sf)) * pnn) :=
  match ts with
  | [] => Ret (c, s)
  | (i, j, bit) :: ts => q <- test_weight expf c s x y base l i j bit ;; test_weights expf (fst q) (snd q) x y base l ts
  end.
(* RAT:428-477 *)
Fixpoint test_layers (expf : sf -> sf) (d : cdraw) (c : list (list (list sf))) (s : pnn) (x y : list N) (base : N) (ls : list nat) : outcome (list (list (list sf)) * pnn) :=
  match ls with
  | [] => Ret (c, s)
  | l :: ls =>
    n <- tests_of (nth l (map fst (mirror s)) []) ;;
    q <- test_weights expf c s x y base l (map (d l) (seq 0 n)) ;;
    test_layers expf d (fst q) (snd q) x y base ls
  end.
(* RAT:388-500; data and labels have whole numbers of samples (the callers build them so); only the first sample is used *)
Definition updateCriticalityMap (expf : sf -> sf) (r : rat) (s : pnn) (data labels : list N) (d : cdraw) : outcome (rat * pnn) :=
  let nin := hd O (sizes s) in let nout := last (sizes s) O in
  if (Nat.eqb nin 0 || Nat.eqb nout 0)%bool then UB UB_div_zero
  else if (negb (Nat.eqb (length data mod nin) 0) || negb (Nat.eqb (length labels mod nout) 0))%bool then Ret (r, s)
  else if (Nat.ltb (length data) nin || Nat.ltb (length labels) nout)%bool then UB UB_out_of_bounds
  else
    let x := firstn nin data in let y := firstn nout labels in
    let c := match crit r with Some c => c | None => new_map (mirror s) end in
    b <- calculateLoss s x y ;;
    q <- test_layers expf d c (snd b) x y (fst b) (seq 0 (length (mirror s))) ;;
    Ret (with_crit r (fst q), snd q).

(** ** training *)
(* std::distance(begin, std::max_element(begin, end)): the first of the largest *)
Fixpoint argmax_from (best : sf) (at_ k : nat) (l : list N) : nat :=
  match l with [] => at_ | v :: l => if flt best (sf32 v) then argmax_from (sf32 v) k (S k) l else argmax_from best at_ (S k) l end.
Definition argmax (l : list N) : nat := match l with [] => O | v :: l => argmax_from (sf32 v) O 1 l end.
(* RAT:113-128 (and 161-176, 190-205, 220-235) *)
Fixpoint count_correct (s : pnn) (samples : list (list N * list N)) (n : N) : outcome (N * pnn) :=
  match samples with
  | [] => Ret (n, s)
  | (x, y) :: samples =>
    r <- forward s x (S754_zero false) no_draws ;;
    count_correct (snd r) samples (if Nat.eqb (argmax (fst r)) (argmax y) then n + 1 else n)
  end.
Definition accuracy (s : pnn) (samples : list (list N * list N)) : outcome (sf * pnn) :=
  r <- count_correct s samples 0 ;; Ret (sdiv (sofZ (Z.of_N (fst r))) (sofZ (Z.of_nat (length samples))), snd r).
(* RAT:132-148: the samples given to train() in one epoch, in order; the batch size is an int converted to size_t *)
Definition wrap64 (z : Z) : Z := (z mod 2 ^ 64)%Z.
Definition epoch_order (num : Z) (batch : Z) : outcome (list Z) :=
  let b := wrap64 batch in
  if (b =? 0)%Z then UB UB_div_zero
  else
    let batches := (wrap64 (num + b - 1) / b)%Z in
    Ret (concat (map (fun k => let start := wrap64 (Z.of_nat k * b) in
                               let stop := Z.min (wrap64 (start + b)) num in
                               map (fun i => start + Z.of_nat i)%Z (seq 0 (Z.to_nat (wrap64 (stop - start))))) (seq 0 (Z.to_nat batches)))).
Fixpoint train_on (s : pnn) (samples : list (list N * list N)) : outcome pnn :=
  match samples with [] => Ret s | (x, y) :: samples => r <- train s x y 1 0 ;; train_on (snd r) samples end.
Fixpoint train_order (s : pnn) (samples : list (list N * list N)) (order : list Z) : outcome pnn :=
  match order with
  | [] => Ret s
  | k :: order =>
    match nth_error samples (Z.to_nat k) with
    | None => UB UB_out_of_bounds
    | Some (x, y) => r <- train s x y 1 0 ;; train_order (snd r) samples order
    end
  end.
(* RAT:111 *)
Definition frequency (p : sf) : outcome Z := z <- fcast int32 (sdiv (sofZ 1) p) ;; Ret (Z.max 1 z).
(* RAT:150-248: an injection round *)
Definition round (r : rat) (s : pnn) (samples : list (list N * list N)) (freq : Z) (d : idraw) : outcome (rat * pnn) :=
  pre <- accuracy s samples ;;
  inj <- injectRadiationEffects r (snd pre) d ;;
  post <- accuracy (snd inj) samples ;;
  let r := fst inj in
  let lost := ssub (fst pre) (fst post) in
  s <- train_on (snd post) samples ;;
  rec <- accuracy s samples ;;
  let drop' := sadd (drop r) lost in
  let rec' := sadd (recovery r) (sdiv (ssub (fst rec) (fst post)) (fmax (slit 1 1000) lost)) in
  _ <- arith int32 (10 * freq) ;;
  Ret (with_drop r drop' rec', snd rec).
(* RAT:130-266 *)
Definition epoch (expf : sf -> sf) (r : rat) (s : pnn) (samples : list (list N * list N)) (batch freq e : Z) (d : idraw) (c : cdraw) : outcome (rat * pnn) :=
  order <- epoch_order (Z.of_nat (length samples)) batch ;;
  s <- train_order s samples order ;;
  q <- (if (e mod freq =? 0)%Z then round r s samples freq d else Ret (r, s)) ;;
  let '(r, s) := q in
  match target r, crit r with
  | true, Some _ =>
    f <- arith int32 (10 * freq) ;;
    if (e mod f =? 0)%Z then
      let sub := firstn 10 samples in updateCriticalityMap expf r s (concat (map fst sub)) (concat (map snd sub)) c
    else Ret (r, s)
  | _, _ => Ret (r, s)
  end.
Fixpoint epochs_from (expf : sf -> sf) (r : rat) (s : pnn) (samples : list (list N * list N)) (batch freq : Z) (e : nat) (n : nat)
         (d : nat -> idraw) (c : nat -> cdraw) : outcome (rat * pnn) :=
  match n with
  | O => Ret (r, s)
  | S n => q <- epoch expf r s samples batch freq (Z.of_nat e) (d e) (c (S e)) ;; epochs_from expf (fst q) (snd q) samples batch freq (S e) n d c
  end.
(* neural/training_config.hpp:20-24; only these two are read *)
Record config := mkConfig { epochs : Z; batch_size : Z }.
Inductive answer := Stats (total_bit_flips : Z) (avg_accuracy_drop recovery_rate : sf) | Error.
(* RAT:49-275; [c 0] answers the first analysis, [c (e + 1)] the one after epoch e, [d e] the injection in epoch e *)
Definition rat_train (expf : sf -> sf) (r : rat) (s : pnn) (data labels : list N) (cfg : config) (d : nat -> idraw) (c : nat -> cdraw) : outcome (rat * pnn * answer) :=
  let nin := hd O (sizes s) in let nout := last (sizes s) O in
  if Nat.eqb nin 0 then UB UB_div_zero
  else if negb (Nat.eqb (length data mod nin) 0) then Ret (r, s, Error)
  else if Nat.eqb nout 0 then UB UB_div_zero
  else if negb (Nat.eqb (length labels mod nout) 0) then Ret (r, s, Error)
  else
    let num := Nat.div (length data) nin in
    if negb (Nat.eqb (num * nout) (length labels)) then Ret (r, s, Error)
    else
      let samples := combine (chunks nin num data) (chunks nout num labels) in
      q <- (match target r, crit r with
            | true, None => let sub := firstn 10 samples in updateCriticalityMap expf r s (concat (map fst sub)) (concat (map snd sub)) (c O)
            | _, _ => Ret (r, s)
            end) ;;
      freq <- frequency (prob r) ;;
      b <- accuracy (snd q) samples ;;
      z <- epochs_from expf (fst q) (snd b) samples (batch_size cfg) freq O (Z.to_nat (epochs cfg)) d c ;;
      let count := sofZ (Z.max 1 (Z.quot (epochs cfg) freq)) in
      let r := fst z in
      let r := with_drop r (sdiv (drop r) count) (sdiv (recovery r) count) in
      Ret (r, snd z, Stats (flips r) (drop r) (recovery r)).
(* RAT:378-386 *)
Definition getCriticalityMap (r : rat) := crit r.
Definition getStats (r : rat) : answer := Stats (flips r) (drop r) (recovery r).
