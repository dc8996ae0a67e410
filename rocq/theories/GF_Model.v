(** GF = include/rad_ml/neural/galois_field.hpp, RS = include/rad_ml/neural/advanced_reed_solomon.hpp

    Elements and bytes are [N]; std::vector and std::array are lists, every subscript is checked
    (out of range = undefined behaviour).  Index arithmetic is done in [Z] and, where the code does it
    in size_t, reduced modulo 2^64. *)
From Coq Require Import List NArith ZArith Bool.
Import ListNotations.
From Verif Require Import Outcome Words.
Local Open Scope N_scope.
Local Open Scope outcome_scope.

(* v[i], v[i] = x *)
Definition get (l : list N) (i : Z) : outcome N :=
  if ((i <? 0) || (Z.of_nat (length l) <=? i))%Z then UB UB_array_index else Ret (nth (Z.to_nat i) l 0).
Fixpoint upd (l : list N) (i : nat) (x : N) : list N :=
  match l, i with
  | [], _ => []
  | _ :: r, O => x :: r
  | h :: r, S k => h :: upd r k x
  end.
Definition put (l : list N) (i : Z) (x : N) : outcome (list N) :=
  if ((i <? 0) || (Z.of_nat (length l) <=? i))%Z then UB UB_array_index else Ret (upd l (Z.to_nat i) x).
(* for (i = lo; i < lo + n; i++) body, where the body may have undefined behaviour *)
Fixpoint loop {A} (n : nat) (i : Z) (body : Z -> A -> outcome A) (a : A) : outcome A :=
  match n with
  | O => Ret a
  | S k => b <- body i a ;; loop k (i + 1) body b
  end.
Definition size (l : list N) : Z := Z.of_nat (length l).
Definition u64 (z : Z) : Z := (z mod 2 ^ 64)%Z.

Section Field.
Variables (m Poly : N).
(* GF:41 *)
Definition ew : N := if m <=? 8 then 8 else 16.
(* GF:43-45: each constant is converted to element_t *)
Definition field_size : N := wrap ew (2 ^ m).
Definition field_mask : N := Z.to_N ((Z.of_N field_size - 1) mod 2 ^ Z.of_N ew)%Z.
Definition primitive_poly : N := wrap ew Poly.
(* the int field_size - 1 *)
Definition order : Z := (Z.of_N field_size - 1)%Z.

(* GF:449-469 *)
Definition multiply_no_lut (a b : N) : N :=
  let step i (s : N * N) :=
    let (result, a) := s in
    let result := if N.testbit b i then N.lxor result a else result in
    let overflow := N.testbit a (m - 1) in
    let a := wrap ew (N.shiftl a 1) in
    let a := if overflow then N.lxor a (N.land primitive_poly field_mask) else a in
    (result, a) in
  N.land (fst (for_up (N.to_nat m) 0 step (0, a))) field_mask.

Record tables := mkt { exp_table : list N; log_table : list N }.
(* GF:50-54, 411-440 *)
Definition initialize_tables : outcome tables :=
  let zeros := repeat 0 (N.to_nat field_size) in
  xe <- loop (Z.to_nat order) 0 (fun i (s : N * list N) =>
          e <- put (snd s) i (fst s) ;;
          let x := multiply_no_lut (fst s) 2 in
          Ret (if field_size <=? x then N.lxor x primitive_poly else x, e)) (1, zeros) ;;
  e0 <- get (snd xe) 0 ;;
  ex <- put (snd xe) order e0 ;;
  lg <- put zeros 0 0 ;;
  lg <- loop (Z.to_nat order) 0 (fun i lg => e <- get ex i ;; put lg (Z.of_N e) (Z.to_N i)) lg ;;
  Ret (mkt ex lg).

Variable T : tables.
Definition expt (i : Z) : outcome N := get (exp_table T) i.
Definition logt (a : N) : outcome Z := l <- get (log_table T) (Z.of_N a) ;; Ret (Z.of_N l).
(* GF:63, 72 *)
Definition add (a b : N) : N := N.lxor a b.
Definition subtract (a b : N) : N := N.lxor a b.
(* GF:81-88 *)
Definition multiply (a b : N) : outcome N :=
  if (a =? 0) || (b =? 0) then Ret 0
  else la <- logt a ;; lb <- logt b ;; expt ((la + lb) mod order).
(* GF:97-106 *)
Definition divide (a b : N) : outcome N :=
  if b =? 0 then Throw E_domain_error
  else if a =? 0 then Ret 0
  else la <- logt a ;; lb <- logt b ;; expt ((la + Z.of_N field_size - 1 - lb) mod order).
(* GF:115-123: the product is an unsigned int *)
Definition pow (a power : N) : outcome N :=
  if a =? 0 then Ret (if power =? 0 then 1 else 0)
  else if power =? 0 then Ret 1
  else la <- logt a ;; expt (((la * Z.of_N power) mod 2 ^ 32) mod order).
(* GF:131-138 *)
Definition inverse (a : N) : outcome N :=
  if a =? 0 then Throw E_domain_error
  else la <- logt a ;; expt (Z.of_N field_size - 1 - la).
(* GF:147-156 *)
Fixpoint eval_from (poly : list N) (x result : N) : outcome N :=
  match poly with
  | [] => Ret result
  | coeff :: r => p <- multiply result x ;; eval_from r x (add p coeff)
  end.
Definition eval_poly (poly : list N) (x : N) : outcome N := eval_from poly x 0.

(* GF:164-186 *)
Definition rs_generator_poly (nsym : N) : outcome (list N) :=
  loop (N.to_nat nsym) 0 (fun i g =>
    let g_new := g ++ [0] in
    loop (length g) 0 (fun j g_new =>
      old <- get g_new (j + 1) ;; gj <- get g j ;; e <- expt i ;;
      p <- multiply gj e ;; put g_new (j + 1) (add old p)) g_new) [1].

(* GF:195-205: uint8_t i, i <= nsym.  [fuel] bounds the number of tests of the loop condition *)
Fixpoint synd_loop (fuel : nat) (msg : list N) (nsym i : N) (synd : list N) : outcome (list N) :=
  match fuel with
  | O => OutOfFuel
  | S k =>
      if i <=? nsym then
        e <- expt (Z.of_N i) ;; v <- eval_poly msg e ;; synd <- put synd (Z.of_N i) v ;;
        synd_loop k msg nsym (wrap 8 (i + 1)) synd
      else Ret synd
  end.
Definition rs_calc_syndromes_fuel (fuel : nat) (msg : list N) (nsym : N) : outcome (list N) :=
  synd_loop fuel msg nsym 0 (repeat 0 (N.to_nat nsym + 1)).
(* 257 tests are enough for every nsym for which the loop ends *)
Definition rs_calc_syndromes (msg : list N) (nsym : N) : outcome (list N) := rs_calc_syndromes_fuel 257 msg nsym.

(* GF:214-265 *)
Definition locator_step (syndromes : list N) (i : Z) (s : list N * list N) : outcome (list N * list N) :=
  let (err_loc, old_loc) := s in
  d0 <- get syndromes (i + 1) ;;
  delta <- loop (length err_loc - 1) 1 (fun j d =>
             c <- get err_loc (size err_loc - 1 - j) ;; sy <- get syndromes (u64 (i + 1 - j)) ;;
             p <- multiply c sy ;; Ret (add d p)) d0 ;;
  let new_loc := 0 :: old_loc in
  new_loc <- (if delta =? 0 then Ret new_loc
              else loop (length new_loc) 0 (fun j nl =>
                     a <- get err_loc j ;; b <- get nl j ;; p <- multiply delta b ;; put nl j (add a p)) new_loc) ;;
  if ((2 * size old_loc <=? i + 1) && negb (delta =? 0)%N)%Z then
    old <- loop (length err_loc) 0 (fun j ol => e <- get ol j ;; p <- multiply e delta ;; put ol j p) err_loc ;;
    Ret (new_loc, old)
  else Ret (err_loc, new_loc).
Definition rs_find_error_locator (syndromes : list N) (nsym : N) : outcome (list N * list N) :=
  s <- loop (N.to_nat nsym) 0 (locator_step syndromes) ([1], [1]) ;;
  let err_loc := fst s in
  err_eval <- loop (N.to_nat nsym) 0 (fun i ev =>
      tmp <- loop (Nat.min (Z.to_nat i + 1) (length err_loc)) 0 (fun j tmp =>
               c <- get err_loc j ;; sy <- get syndromes (u64 (i - j + 1)) ;;
               p <- multiply c sy ;; Ret (add tmp p)) 0 ;;
      put ev i tmp) (repeat 0 (N.to_nat nsym)) ;;
  Ret (err_loc, err_eval).

(* GF:274-306; field_size - 1 - i is computed in size_t *)
Definition rs_find_errors (err_loc : list N) (msg_len : N) : outcome (list Z) :=
  let num_errors := (size err_loc - 1)%Z in
  if (Z.of_N msg_len <? u64 num_errors)%Z then Ret []
  else
    pos <- loop (N.to_nat msg_len) 0 (fun i (pos : list Z) =>
      x_inv <- expt (u64 (order - i) mod order) ;;
      ev <- eval_from err_loc x_inv 0 ;;
      Ret (if ev =? 0 then pos ++ [(Z.of_N msg_len - 1 - i)%Z] else pos)) [] ;;
    Ret (if (Z.of_nat (length pos) =? u64 num_errors)%Z then pos else []).

(* GF:317-357 *)
Definition rs_correct_errors_at_positions (msg_in : list N) (err_pos : list Z) (err_loc err_eval : list N) : outcome (list N) :=
  loop (length err_pos) 0 (fun i msg =>
    let pos := nth (Z.to_nat i) err_pos 0%Z in
    x_inv <- expt (u64 (order - pos) mod order) ;;
    ev <- loop (length err_eval) 0 (fun j s =>
            c <- get err_eval j ;; q <- pow x_inv (Z.to_N j) ;; p <- multiply c q ;; Ret (add s p)) 0 ;;
    dv <- loop (Nat.div2 (length err_loc)) 0 (fun h s =>        (* j = 1, 3, 5, ... *)
            let j := (2 * h + 1)%Z in
            c <- get err_loc j ;; q <- pow x_inv (Z.to_N (j - 1)) ;; p <- multiply c q ;; Ret (add s p)) 0 ;;
    d <- multiply x_inv dv ;;
    mag <- divide ev d ;;
    old <- get msg pos ;; put msg pos (add old mag)) msg_in.

(* GF:366-402.  None = std::nullopt *)
Definition rs_correct_errors (msg : list N) (nsym : N) : outcome (option (list N)) :=
  syndromes <- rs_calc_syndromes msg nsym ;;
  if forallb (fun s => s =? 0) (tl syndromes) then Ret (Some msg)
  else
    le <- rs_find_error_locator syndromes nsym ;;
    pos <- rs_find_errors (fst le) (N.of_nat (length msg)) ;;
    match pos with
    | [] => Ret None
    | _ => r <- rs_correct_errors_at_positions msg pos (fst le) (snd le) ;; Ret (Some r)
    end.
End Field.

(* GF:473-475 *)
Definition GF16 : N * N := (4, 0x13).
Definition GF256 : N * N := (8, 0x11d).
Definition GF1024 : N * N := (10, 0x409).
(* GF:50-54 *)
Definition gf_construct (p : N * N) : outcome tables := initialize_tables (fst p) (snd p).

(** *** AdvancedReedSolomon<T, SymbolSize, ECCSymbols> *)
Section Codec.
Variables (SymbolSize ECCSymbols data_size : N).        (* data_size = sizeof(T) *)
(* RS:47-51 *)
Definition field_of : N * N := if SymbolSize =? 8 then GF256 else if SymbolSize =? 4 then GF16 else GF1024.
(* RS:55-59 *)
Definition symbol_bytes : N := if SymbolSize <=? 8 then 1 else 2.
Definition data_symbols : N := data_size / symbol_bytes + (if data_size mod symbol_bytes =? 0 then 0 else 1).
Definition total_symbols : N := data_symbols + ECCSymbols.

(* RS:64-67 *)
Record codec := mkc { ctab : tables; generator_poly : list N }.
Definition rs_construct : outcome codec :=
  t <- gf_construct field_of ;; g <- rs_generator_poly (fst field_of) t ECCSymbols ;; Ret (mkc t g).

(* RS:347-366: the bytes of the object, grouped little-endian *)
Fixpoint elements (n : nat) (bytes : list N) : list N :=
  match n with
  | O => []
  | S k => match symbol_bytes with
           | 1 => hd 0 bytes :: elements k (tl bytes)
           | _ => N.lor (hd 0 bytes) (N.shiftl (hd 0 (tl bytes)) 8) :: elements k (tl (tl bytes))
           end
  end.
(* RS:374-385 *)
Definition from_elements (es : list N) : list N :=
  flat_map (fun e => match symbol_bytes with
                     | 1 => [N.land e 0xFF]
                     | _ => [N.land e 0xFF; N.land (N.shiftr e 8) 0xFF]
                     end) es.

Variable C : codec.
Definition fmul := multiply (fst field_of) (ctab C).
(* RS:393-430 *)
Definition ecc_step (message : list N) (i : Z) (remainder : list N) : outcome (list N) :=
  let n := Z.of_N ECCSymbols in
  mi <- get message i ;; r0 <- get remainder 0 ;;
  let feedback := add mi r0 in
  if feedback =? 0 then
    r <- loop (N.to_nat ECCSymbols - 1) 0 (fun j r => x <- get r (j + 1) ;; put r j x) remainder ;;
    put r (n - 1) 0
  else
    r <- loop (N.to_nat ECCSymbols - 1) 1 (fun j r =>
           x <- get r j ;;
           if (j <? size (generator_poly C))%Z
           then g <- get (generator_poly C) j ;; p <- fmul feedback g ;; put r (j - 1) (add x p)
           else put r (j - 1) x) remainder ;;
    if (n <? size (generator_poly C))%Z then put r (n - 1) 0
    else g <- get (generator_poly C) n ;; p <- fmul feedback g ;; put r (n - 1) p.
Definition compute_ecc_symbols (message : list N) : outcome (list N) :=
  loop (N.to_nat data_symbols) 0 (ecc_step message) (repeat 0 (N.to_nat ECCSymbols)).

(* RS:75-94: [data] are the sizeof(T) bytes of the object *)
Definition encode (data : list N) : outcome (list N) :=
  let message := elements (N.to_nat data_symbols) data ++ repeat 0 (N.to_nat ECCSymbols) in
  ecc <- compute_ecc_symbols message ;;
  Ret (from_elements (firstn (N.to_nat data_symbols) message ++ ecc)).
(* RS:439-460: bytes beyond sizeof(T) are dropped *)
Definition to_data (es : list N) : list N := firstn (N.to_nat data_size) (from_elements es).
(* RS:102-135 *)
Definition decode (enc : list N) : outcome (option (list N)) :=
  if (Z.of_nat (length enc) <? Z.of_N (total_symbols * symbol_bytes))%Z then Ret None
  else
    let codeword := elements (N.to_nat total_symbols) enc in
    c <- rs_correct_errors (fst field_of) (ctab C) codeword ECCSymbols ;;
    match c with
    | None => Ret None
    | Some corrected => Ret (Some (to_data (firstn (N.to_nat data_symbols) corrected)))
    end.
(* RS:151-153 *)
Definition correction_capability : N := ECCSymbols / 2.
(* RS:161-197 *)
Definition is_correctable (enc : list N) : outcome bool :=
  if (Z.of_nat (length enc) <? Z.of_N (total_symbols * symbol_bytes))%Z then Ret false
  else
    let codeword := elements (N.to_nat total_symbols) enc in
    syndromes <- rs_calc_syndromes (fst field_of) (ctab C) codeword ECCSymbols ;;
    if forallb (fun s => s =? 0) (tl syndromes) then Ret true
    else
      le <- rs_find_error_locator (fst field_of) (ctab C) syndromes ECCSymbols ;;
      pos <- rs_find_errors (fst field_of) (ctab C) (fst le) (N.of_nat (length codeword)) ;;
      Ret (negb (Nat.eqb (length pos) 0) && (N.of_nat (length pos) <=? correction_capability)).
End Codec.

(* RS:205-231.  Both loops are over bit 0..7 and block 0..block_count-1; result is a byte vector *)
Definition set_bit (l : list N) (byte : N) (bit : N) : list N :=
  upd l (N.to_nat byte) (N.lor (nth (N.to_nat byte) l 0) (2 ^ bit)).
Definition interleave (data : list N) : list N :=
  let n := N.of_nat (length data) in
  let block_count := (n + 7) / 8 in
  for_up 8 0 (fun bit r => for_up (N.to_nat block_count) 0 (fun block r =>
    let dst := bit * block_count + block in
    if (block <? n) && (dst <? n) then
      if N.testbit (nth (N.to_nat block) data 0) bit then set_bit r (dst / 8) (dst mod 8) else r
    else r) r) (repeat 0 (length data)).
(* RS:239-266 *)
Definition deinterleave (data : list N) : list N :=
  let n := N.of_nat (length data) in
  let block_count := (n + 7) / 8 in
  for_up 8 0 (fun bit r => for_up (N.to_nat block_count) 0 (fun block r =>
    let src := bit * block_count + block in
    if (src <? n) && (block <? n) then
      if N.testbit (nth (N.to_nat (src / 8)) data 0) (src mod 8) then set_bit r block bit else r
    else r) r) (repeat 0 (length data)).
