(** Model of PN = neural/protected_neural_network.hpp (ProtectedNeuralNetwork<float>; for integer types the constructor's
    uniform_real_distribution<T> does not exist).  A float is its 32-bit pattern; arithmetic is IEEE single precision, and a NaN
    result is the one pattern 7FC00000 (payloads are left out).  What the random generators answer is an input.  The activation
    functions are pure functions.  Counters are unbounded, log messages and names are left out; a call that throws in the middle of
    applyRadiationEffects (only for layers of size 0) is recorded as the exception alone. *)
From Coq Require Import List NArith ZArith Bool Arith SpecFloat.
Import ListNotations.
From Verif Require Import Outcome Words Floats Bits_Model MBP_Model.
Local Open Scope N_scope.

(** ** float *)
Definition bits32 (x : sf) : N :=
  let sign (s : bool) := if s then 2147483648 else 0 in
  match x with
  | S754_zero s => sign s
  | S754_infinity s => sign s + 2139095040
  | S754_nan => 2143289344
  | S754_finite s m e => sign s + (if N.pos m <? 8388608 then N.pos m else Z.to_N (e + 150) * 8388608 + (N.pos m - 8388608))
  end.
Definition f32add (a b : N) : N := bits32 (sadd (sf32 a) (sf32 b)).
Definition f32sub (a b : N) : N := bits32 (ssub (sf32 a) (sf32 b)).
Definition f32mul (a b : N) : N := bits32 (smul (sf32 a) (sf32 b)).
Definition f32div (a b : N) : N := bits32 (sdiv (sf32 a) (sf32 b)).
Definition f32eq (a b : N) : bool := feqb (sf32 a) (sf32 b).
Definition f32ofN (n : N) : N := bits32 (sofZ (Z.of_N n)).
(* PN:658; a pattern has 32 bits *)
Definition relu (x : N) : N := if fgt (sf32 x) (S754_zero false) then wrap 32 x else 0.

(** ** the network *)
(* PN:77-84 *)
Inductive plevel := NONE_ | CHECKSUM_ONLY | SELECTIVE_TMR | FULL_TMR | ADAPTIVE_TMR | SPACE_OPTIMIZED.
(* PN:1027-1031 *)
Record stats := mkStats { detected : N; corrected : N; uncorrectable : N }.
(* PN:1012-1031 *)
Record pnn := mkPNN { sizes : list nat; lvl : plevel; counter : N; wts : list (list (list mbp)); bss : list (list mbp);
                      acts : list (N -> N); mirror : list (list (list N) * list N); st : stats }.
Fixpoint upd {A} (l : list A) (i : nat) (f : A -> A) : list A :=
  match l, i with [], _ => [] | x :: r, O => f x :: r | x :: r, S i => x :: upd r i f end.
Definition get3 {A} (w : list (list (list A))) (l i j : nat) : option A :=
  match nth_error w l with Some m => match nth_error m i with Some r => nth_error r j | None => None end | None => None end.
Definition put3 {A} (w : list (list (list A))) (l i j : nat) (c : A) : list (list (list A)) :=
  upd w l (fun m => upd m i (fun r => upd r j (fun _ => c))).
Definition get2 {A} (b : list (list A)) (l j : nat) : option A := match nth_error b l with Some r => nth_error r j | None => None end.
Definition put2 {A} (b : list (list A)) (l j : nat) (c : A) : list (list A) := upd b l (fun r => upd r j (fun _ => c)).
Definition with_w (s : pnn) (w : list (list (list mbp))) : pnn := mkPNN (sizes s) (lvl s) (counter s) w (bss s) (acts s) (mirror s) (st s).
Definition with_b (s : pnn) (b : list (list mbp)) : pnn := mkPNN (sizes s) (lvl s) (counter s) (wts s) b (acts s) (mirror s) (st s).
Definition with_st (s : pnn) (t : stats) : pnn := mkPNN (sizes s) (lvl s) (counter s) (wts s) (bss s) (acts s) (mirror s) t.
Definition with_mirror (s : pnn) (m : list (list (list N) * list N)) : pnn := mkPNN (sizes s) (lvl s) (counter s) (wts s) (bss s) (acts s) m (st s).
Definition with_counter (s : pnn) (c : N) : pnn := mkPNN (sizes s) (lvl s) c (wts s) (bss s) (acts s) (mirror s) (st s).

(* PN:733-743, 786-796: getValue, hasError, correctErrors of one cell *)
Definition note (t : stats) (ok : bool) : stats :=
  mkStats (detected t + 1) (if ok then corrected t + 1 else corrected t) (if ok then uncorrectable t else uncorrectable t + 1).
Definition read_cell (c : mbp) (t : stats) : N * mbp * stats :=
  let '(v, c) := getValue c in
  if hasError c then let '(ok, c) := correctErrors c in (v, c, note t ok) else (v, c, t).
(* PN:723-744 *)
Definition getWeight (s : pnn) (l i j : nat) : outcome (N * pnn) :=
  match get3 (wts s) l i j with
  | None => Throw E_out_of_range
  | Some c => let '(v, c, t) := read_cell c (st s) in Ret (v, with_st (with_w s (put3 (wts s) l i j c)) t)
  end.
(* PN:778-797 *)
Definition getBias (s : pnn) (l j : nat) : outcome (N * pnn) :=
  match get2 (bss s) l j with
  | None => Throw E_out_of_range
  | Some c => let '(v, c, t) := read_cell c (st s) in Ret (v, with_st (with_b s (put2 (bss s) l j c)) t)
  end.
(* PN:754-769; layers_ is subscripted without a check *)
Definition setWeight (s : pnn) (l i j : nat) (v : N) : outcome pnn :=
  match get3 (wts s) l i j with
  | None => Throw E_out_of_range
  | Some c =>
    match get3 (map fst (mirror s)) l i j with
    | None => UB UB_array_index
    | Some _ => Ret (with_mirror (with_w s (put3 (wts s) l i j (setValue c v))) (upd (mirror s) l (fun p => (upd (fst p) i (fun r => upd r j (fun _ => v)), snd p))))
    end
  end.
(* PN:806-819 *)
Definition setBias (s : pnn) (l j : nat) (v : N) : outcome pnn :=
  match get2 (bss s) l j with
  | None => Throw E_out_of_range
  | Some c =>
    match get2 (map snd (mirror s)) l j with
    | None => UB UB_array_index
    | Some _ => Ret (with_mirror (with_b s (put2 (bss s) l j (setValue c v))) (upd (mirror s) l (fun p => (fst p, upd (snd p) j (fun _ => v)))))
    end
  end.
(* PN:829-841, 850-860: the value is written over the first member of the cell, value_ (PN relies on that layout) *)
Definition strike (c : mbp) (v : N) : mbp := mkmb v (coding_scheme_ c) (ecc_data_ c) (valid_ c).
Definition raw_setWeight (s : pnn) (l i j : nat) (v : N) : outcome pnn :=
  match get3 (wts s) l i j with None => Throw E_out_of_range | Some c => Ret (with_w s (put3 (wts s) l i j (strike c v))) end.
Definition raw_setBias (s : pnn) (l j : nat) (v : N) : outcome pnn :=
  match get2 (bss s) l j with None => Throw E_out_of_range | Some c => Ret (with_b s (put2 (bss s) l j (strike c v))) end.
(* PN:976-1009 *)
Fixpoint repair_row (r : list mbp) (t : stats) : list mbp * stats :=
  match r with
  | [] => ([], t)
  | c :: r => let '(c, t) := if hasError c then let '(ok, c) := correctErrors c in (c, note t ok) else (c, t) in
              let '(r, t) := repair_row r t in (c :: r, t)
  end.
Fixpoint repair_rows (m : list (list mbp)) (t : stats) : list (list mbp) * stats :=
  match m with [] => ([], t) | r :: m => let '(r, t) := repair_row r t in let '(m, t) := repair_rows m t in (r :: m, t) end.
Fixpoint repair_layers (w : list (list (list mbp))) (t : stats) : list (list (list mbp)) * stats :=
  match w with [] => ([], t) | m :: w => let '(m, t) := repair_rows m t in let '(w, t) := repair_layers w t in (m :: w, t) end.
Definition repairAllWeights (s : pnn) : pnn :=
  let '(w, t) := repair_layers (wts s) (st s) in let '(b, t) := repair_rows (bss s) t in
  mkPNN (sizes s) (lvl s) (counter s) w b (acts s) (mirror s) t.
(* PN:956-971 *)
Definition adaptToRadiationLevel (s : pnn) (rad : sf) : pnn :=
  match lvl s with
  | ADAPTIVE_TMR =>
    let s := with_counter s (counter s + 1) in
    if counter s mod (if fgt rad (dlit 5 10) then 10 else 100) =? 0 then repairAllWeights s else s
  | _ => s
  end.
(* PN:870-891 *)
Definition applyBitFlip (v byte bit : N) : N := N.lxor v (N.shiftl 1 (8 * byte + bit)).
(* PN:899-949: for each activation the answers for the two copies (a number in [0,1), and a byte and a bit) *)
Record act_draw := mkAD { u1 : sf; byte1 : N; bit1 : N; u2 : sf; byte2 : N; bit2 : N }.
Definition vote_activation (a : N) (rad : sf) (d : act_draw) (t : stats) : N * stats :=
  let c1 := if flt (u1 d) (dmul rad (dlit 1 10)) then applyBitFlip a (byte1 d) (bit1 d) else a in
  let c2 := if flt (u2 d) (dmul rad (dlit 1 10)) then applyBitFlip a (byte2 d) (bit2 d) else a in
  if f32eq a c1 then (a, t)
  else if f32eq c1 c2 then (c1, note t true)
  else if f32eq a c2 then (a, note t true)
  else (a, note t false).
Fixpoint vote_all (l : list N) (rad : sf) (d : nat -> act_draw) (i : nat) (t : stats) : list N * stats :=
  match l with
  | [] => ([], t)
  | a :: l => let '(a, t) := vote_activation a rad (d i) t in let '(l, t) := vote_all l rad d (S i) t in (a :: l, t)
  end.
Definition protectActivations (s : pnn) (l : list N) (rad : sf) (d : nat -> act_draw) : list N * pnn :=
  match lvl s with
  | FULL_TMR | ADAPTIVE_TMR => if fgt rad (dlit 2 10) then let '(l, t) := vote_all l rad d 0 (st s) in (l, with_st s t) else (l, s)
  | _ => (l, s)
  end.
Local Open Scope outcome_scope.
(* PN:285-288 *)
Fixpoint accumulate (s : pnn) (l j : nat) (prevs : list nat) (x : list N) (sum : N) : outcome (N * pnn) :=
  match prevs with
  | [] => Ret (sum, s)
  | p :: ps => r <- getWeight s l p j ;; accumulate (snd r) l j ps x (f32add sum (f32mul (fst r) (nth p x 0)))
  end.
(* PN:281-292 *)
Fixpoint neurons (s : pnn) (l n : nat) (js : list nat) (x : list N) : outcome (list N * pnn) :=
  match js with
  | [] => Ret ([], s)
  | j :: js =>
    b <- getBias s l j ;;
    r <- accumulate (snd b) l j (seq 0 n) x (fst b) ;;
    q <- neurons (snd r) l n js x ;;
    Ret (nth l (acts s) relu (fst r) :: fst q, snd q)
  end.
(* PN:277-298: the layers [ls] that remain; [d l i] the answers for activation i of layer l *)
Fixpoint passes (s : pnn) (ls : list nat) (x : list N) (rad : sf) (d : nat -> nat -> act_draw) : outcome (list N * pnn) :=
  match ls with
  | [] => Ret (x, s)
  | l :: ls =>
    r <- neurons s l (nth l (sizes s) O) (seq 0 (nth (S l) (sizes s) O)) x ;;
    let '(y, s) := protectActivations (snd r) (fst r) rad (d l) in
    passes s ls y rad d
  end.
(* PN:260-301 *)
Definition forward (s : pnn) (x : list N) (rad : sf) (d : nat -> nat -> act_draw) : outcome (list N * pnn) :=
  if negb (Nat.eqb (length x) (hd O (sizes s))) then Throw E_invalid_argument
  else passes (adaptToRadiationLevel s rad) (seq 0 (length (wts s))) x rad d.

(* PN:111-127, 636-684; [init l i j] are the answers of the weight distribution, whose bounds are infinite if both layers are empty *)
Fixpoint pairs (l : list nat) : list (nat * nat) := match l with a :: ((b :: _) as r) => (a, b) :: pairs r | _ => [] end.
Fixpoint index {A} (i : nat) (l : list A) : list (nat * A) := match l with [] => [] | x :: l => (i, x) :: index (S i) l end.
Definition pnn_new (layer_sizes : list nat) (level : plevel) (init : nat -> nat -> nat -> N) : outcome pnn :=
  if Nat.ltb (length layer_sizes) 2 then Throw E_invalid_argument
  else if existsb (fun p => Nat.eqb (fst p + snd p) 0) (pairs layer_sizes) then UB UB_bad_iterator
  else
    let shape := index O (pairs layer_sizes) in
    let w := map (fun q => let '(l, (a, b)) := q in map (fun i => map (fun j => init l i j) (seq 0 b)) (seq 0 a)) shape in
    let v := map (fun q => let '(l, (a, b)) := q in repeat 0 b) shape in
    Ret (mkPNN layer_sizes level 0 (map (map (map (setValue mb_default))) w) (map (map (setValue mb_default)) v)
               (repeat relu (length layer_sizes - 1)) (combine w v) (mkStats 0 0 0)).
(* PN:320-328 *)
Definition setActivationFunction (s : pnn) (l : nat) (f : N -> N) : outcome pnn :=
  if Nat.leb (length (acts s)) l then Throw E_out_of_range
  else Ret (mkPNN (sizes s) (lvl s) (counter s) (wts s) (bss s) (upd (acts s) l (fun _ => f)) (mirror s) (st s)).
(* PN:336-357: the network after the call and the exception thrown, if any *)
Fixpoint set_row (s : pnn) (l i j : nat) (row : list N) : outcome pnn :=
  match row with [] => Ret s | v :: row => s <- setWeight s l i j v ;; set_row s l i (S j) row end.
Fixpoint set_rows (s : pnn) (l i n : nat) (m : list (list N)) : outcome (pnn * option exn) :=
  match m with
  | [] => Ret (s, None)
  | row :: m => if negb (Nat.eqb (length row) n) then Ret (s, Some E_invalid_argument) else s <- set_row s l i O row ;; set_rows s l (S i) n m
  end.
Definition setLayerWeights (s : pnn) (l : nat) (m : list (list N)) : outcome (pnn * option exn) :=
  if Nat.leb (length (wts s)) l then Ret (s, Some E_out_of_range)
  else if negb (Nat.eqb (length m) (nth l (sizes s) O)) then Ret (s, Some E_invalid_argument)
  else set_rows s l O (nth (S l) (sizes s) O) m.
(* PN:365-380 *)
Fixpoint set_biases (s : pnn) (l j : nat) (b : list N) : outcome pnn :=
  match b with [] => Ret s | v :: b => s <- setBias s l j v ;; set_biases s l (S j) b end.
Definition setLayerBiases (s : pnn) (l : nat) (b : list N) : outcome (pnn * option exn) :=
  if Nat.leb (length (bss s)) l then Ret (s, Some E_out_of_range)
  else if negb (Nat.eqb (length b) (nth (S l) (sizes s) O)) then Ret (s, Some E_invalid_argument)
  else s <- set_biases s l O b ;; Ret (s, None).
(* PN:388-458 *)
Record wdraw := mkWD { wl : nat; wi : nat; wj : nat; wtype : upset; wu : sf; worc : oracle; wbyte : N; wbit : N }.
Record bdraw := mkBD { bl : nat; bj : nat; bbyte : N; bbit : N }.
Definition to_size (x : sf) : outcome N :=
  match trunc_sf x with Some z => if ((0 <=? z) && (z <? 2 ^ 64))%Z then Ret (Z.to_N z) else UB UB_float_to_int | None => UB UB_float_to_int end.
Definition advanced (p : plevel) : bool := match p with NONE_ | CHECKSUM_ONLY => false | _ => true end.
Fixpoint hit_weights (s : pnn) (rad : sf) (ds : list wdraw) : outcome pnn :=
  match ds with
  | [] => Ret s
  | d :: ds =>
    r <- getWeight s (wl d) (wi d) (wj d) ;;
    v <- (if advanced (lvl s) then applyMultiBitErrors (fst r) (dmul (wu d) rad) (wtype d) (worc d) else Ret (applyBitFlip (fst r) (wbyte d) (wbit d))) ;;
    s <- raw_setWeight (snd r) (wl d) (wi d) (wj d) v ;;
    hit_weights s rad ds
  end.
Fixpoint hit_biases (s : pnn) (ds : list bdraw) : outcome pnn :=
  match ds with
  | [] => Ret s
  | d :: ds =>
    r <- getBias s (bl d) (bj d) ;;
    s <- raw_setBias (snd r) (bl d) (bj d) (applyBitFlip (fst r) (bbyte d) (bbit d)) ;;
    hit_biases s ds
  end.
Definition applyRadiationEffects (s : pnn) (rad : sf) (ws : list wdraw) (bs : list bdraw) : outcome pnn :=
  if fle rad (dofZ 0) then Ret s
  else
    num <- to_size (dmul rad (dofZ 50)) ;;
    s <- hit_weights s rad (firstn (N.to_nat num) ws) ;;
    s <- (if advanced (lvl s) then hit_biases s (firstn (N.to_nat (num / 5)) bs) else Ret s) ;;
    Ret match lvl s with ADAPTIVE_TMR | FULL_TMR => repairAllWeights s | _ => s end.
(* PN:465-476 *)
Definition getErrorStats (s : pnn) : N * N := (detected (st s), corrected (st s)).
Definition resetErrorStats (s : pnn) : pnn := with_st s (mkStats 0 0 0).
(* PN:551-598; one sample after the other *)
Definition no_draws : nat -> nat -> act_draw := fun _ _ => mkAD (S754_zero false) 0 0 (S754_zero false) 0 0.
Fixpoint losses (s : pnn) (samples : list (list N * list N)) (total : N) : outcome (N * pnn) :=
  match samples with
  | [] => Ret (total, s)
  | (x, y) :: samples =>
    r <- forward s x (S754_zero false) no_draws ;;
    let sample_loss := fold_left (fun acc i => let diff := f32sub (nth i (fst r) 0) (nth i y 0) in f32add acc (f32mul diff diff)) (seq 0 (length (fst r))) 0 in
    losses (snd r) samples (f32add total (f32div sample_loss (f32ofN (N.of_nat (length (fst r))))))
  end.
Fixpoint chunks {A} (n k : nat) (l : list A) : list (list A) := match k with O => [] | S k => firstn n l :: chunks n k (skipn n l) end.
Definition calculateLoss (s : pnn) (data labels : list N) : outcome (N * pnn) :=
  let nin := hd O (sizes s) in let nout := last (sizes s) O in
  if Nat.eqb nin 0 then UB UB_div_zero
  else
    let num := Nat.div (length data) nin in
    if (Nat.eqb num 0 || negb (Nat.eqb (length labels) (num * nout)))%bool then Ret (f32ofN 1, s)
    else r <- losses s (combine (chunks nin num data) (chunks nout num labels)) 0 ;; Ret (f32div (fst r) (f32ofN (N.of_nat num)), snd r).
(* PN:532-542 *)
Definition evaluate (s : pnn) (data labels : list N) : outcome (N * pnn) :=
  r <- calculateLoss s data labels ;; Ret (f32sub (f32ofN 1) (fst r), snd r).
(* PN:506-523; batch size and learning rate are not used *)
Fixpoint train (s : pnn) (data labels : list N) (epochs : nat) (loss : N) : outcome (N * pnn) :=
  match epochs with O => Ret (loss, s) | S e => r <- calculateLoss s data labels ;; train (snd r) data labels e (fst r) end.

(** a history of calls; [OLayers] is any edit through the references getLayers() and getLayerMutable() give (PN:492-494, 618-623) *)
Inductive op := OForward (x : list N) (rad : sf) (d : nat -> nat -> act_draw) | OWeights (l : nat) (m : list (list N)) | OBiases (l : nat) (b : list N)
              | OActivation (l : nat) (f : N -> N) | ORadiation (rad : sf) (ws : list wdraw) (bs : list bdraw) | OReset
              | OTrain (data labels : list N) (epochs : nat) | OLayers (m : list (list (list N) * list N)).
(* an exception leaves the network as it is at that point *)
Definition step (s : pnn) (o : op) : outcome pnn :=
  let keep (r : outcome pnn) := match r with Throw _ => Ret s | r => r end in
  match o with
  | OForward x rad d => keep (r <- forward s x rad d ;; Ret (snd r))
  | OWeights l m => r <- setLayerWeights s l m ;; Ret (fst r)
  | OBiases l b => r <- setLayerBiases s l b ;; Ret (fst r)
  | OActivation l f => keep (setActivationFunction s l f)
  | ORadiation rad ws bs => applyRadiationEffects s rad ws bs
  | OReset => Ret (resetErrorStats s)
  | OTrain data labels e => keep (r <- train s data labels e 0 ;; Ret (snd r))
  | OLayers m => Ret (with_mirror s m)
  end.
Fixpoint run (s : pnn) (ops : list op) : outcome pnn :=
  match ops with [] => Ret s | o :: ops => s <- step s o ;; run s ops end.
