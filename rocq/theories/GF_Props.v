(** Properties C49-C53, C83-C87: GaloisField and AdvancedReedSolomon. *)
From Coq Require Import List NArith ZArith Bool.
Import ListNotations.
From Verif Require Import Outcome Words GF_Model GF_Spec RS2_Proofs RS3_Proofs.
Local Open Scope N_scope.

(** C49.  After construction, the operations on field elements are those of one field, whose product is the product of
    polynomials modulo the primitive polynomial; no table is read out of range and domain_error is thrown
    exactly for a zero divisor.  pow is the iterated product for exponents up to 2^32/(2^m - 2) ... *)
Theorem C49_field_partial : forall p T, good_field p -> gf_construct p = Ret T -> exists mul inv, field_laws (elem p) mul inv /\
  (forall a b, elem p a -> elem p b -> multiply (fst p) T a b = Ret (mul a b)) /\
  (forall a b, elem p a -> elem p b -> divide (fst p) T a b = if b =? 0 then Throw E_domain_error else Ret (mul a (inv b))) /\
  (forall a, elem p a -> inverse (fst p) T a = if a =? 0 then Throw E_domain_error else Ret (inv a)) /\
  (forall a n, elem p a -> n * (2 ^ fst p - 2) < 2 ^ 32 -> pow (fst p) T a n = Ret (power mul a n)) /\
  (forall a b, elem p a -> elem p b -> remainder_of (fst p) (snd p) (pmul a b) (mul a b)).
Proof. exact field. Qed.
Print Assumptions C49_field_partial.
(* the remainder is unique, so the last clause determines mul *)
Theorem C49_remainder_unique : forall m P x r r', 2 ^ m <= P < 2 ^ (m + 1) -> remainder_of m P x r -> remainder_of m P x r' -> r = r'.
Proof. exact remainder_unique. Qed.
Print Assumptions C49_remainder_unique.
(* ... and not for all exponents: log * power wraps around in unsigned int *)
Theorem C49_pow_refuted : exists T, gf_construct GF16 = Ret T /\ exists mul inv, field_laws (elem GF16) mul inv /\
  (forall a b, elem GF16 a -> elem GF16 b -> multiply 4 T a b = Ret (mul a b)) /\
  pow 4 T 2 (2 ^ 31) = Ret (power mul 2 (2 ^ 31)) /\
  exists n, n < 2 ^ 32 /\ exists r, pow 4 T 9 n = Ret r /\ r <> power mul 9 n.
Proof. exact pow_wrong. Qed.
Print Assumptions C49_pow_refuted.
Example C49_nonvacuous : good_field GF1024 /\ exists T, gf_construct GF1024 = Ret T /\ elem GF1024 1023 /\
  multiply 10 T 1023 513 = Ret 995 /\ divide 10 T 995 513 = Ret 1023 /\ divide 10 T 1 0 = Throw E_domain_error.
Proof.
  split; [right; reflexivity|]. destruct (gf_construct GF1024) as [T| | |] eqn:E; [|exfalso|exfalso|exfalso].
  2-4: assert (H : match gf_construct GF1024 with Ret _ => true | _ => false end = true) by (vm_compute; reflexivity); rewrite E in H; discriminate.
  exists T. split; [reflexivity|]. split; [reflexivity|].
  assert (H : match gf_construct GF1024 with Ret T => (multiply 10 T 1023 513, divide 10 T 995 513, divide 10 T 1 0) | _ => (UB UB_array_index, UB UB_array_index, UB UB_array_index) end
    = (Ret 995, Ret 1023, Throw E_domain_error)) by (vm_compute; reflexivity).
  rewrite E in H. injection H as -> ->. auto.
Qed.

(** C50.  field_size is 256 converted to uint8_t, that is 0: the tables are empty. *)
Theorem C50_gf256_refuted : gf_construct GF256 = UB UB_array_index /\ forall ECCSymbols, rs_construct 8 ECCSymbols = UB UB_array_index.
Proof. exact (conj gf256_ub rs8_ub). Qed.
Print Assumptions C50_gf256_refuted.
Theorem C50_other_fields_partial : forall p, good_field p -> exists T, gf_construct p = Ret T.
Proof. exact good_constructs. Qed.
Print Assumptions C50_other_fields_partial.

(** C51.  2 is the generator alpha of the multiplicative group. *)
Theorem C51_generator_polynomial : forall p T n, good_field p -> gf_construct p = Ret T -> n <= 2 ^ fst p ->
  exists g, rs_generator_poly (fst p) T n = Ret g /\ length g = S (N.to_nat n) /\ hd 0 g = 1 /\ elems p g /\
  forall x, elem p x -> exists v, eval_poly (fst p) T g x = Ret v /\ (v = 0 <-> exists i, i < n /\ pow (fst p) T 2 i = Ret x).
Proof. exact generator. Qed.
Print Assumptions C51_generator_polynomial.
Theorem C51_beyond_the_field : forall p T n, good_field p -> gf_construct p = Ret T -> 2 ^ fst p < n ->
  rs_generator_poly (fst p) T n = UB UB_array_index.
Proof. exact generator_ub. Qed.
Print Assumptions C51_beyond_the_field.
Example C51_nonvacuous : exists T, gf_construct GF16 = Ret T /\ rs_generator_poly 4 T 3 = Ret [1; 7; 14; 8].
Proof.
  destruct (gf_construct GF16) as [T| | |] eqn:E; [|exfalso|exfalso|exfalso].
  2-4: assert (H : match gf_construct GF16 with Ret _ => true | _ => false end = true) by (vm_compute; reflexivity); rewrite E in H; discriminate.
  exists T. split; [reflexivity|].
  assert (H : match gf_construct GF16 with Ret T => rs_generator_poly 4 T 3 | _ => UB UB_array_index end = Ret [1; 7; 14; 8]) by (vm_compute; reflexivity).
  rewrite E in H. exact H.
Qed.

(** C52.  Nothing but the data or undefined behaviour; the data when it is all zero; undefined behaviour for every other data
    shorter than the check symbols. *)
Theorem C52_roundtrip_refuted : forall SymbolSize ECCSymbols data_size C data,
  good_config SymbolSize ECCSymbols data_size -> rs_construct SymbolSize ECCSymbols = Ret C -> object data_size data ->
  elems (field_of SymbolSize) (symbols SymbolSize data_size data) ->
  ~ all_zero data -> data_symbols SymbolSize data_size < ECCSymbols ->
  exists enc, encode SymbolSize ECCSymbols data_size C data = Ret enc /\ decode SymbolSize ECCSymbols data_size C enc = UB UB_array_index.
Proof.
  intros SS n ds C data Hc EC Ho Hs Nz Hn. destruct (codec_roundtrip SS n ds C data Hc EC Ho Hs) as (enc & E & _ & _ & H).
  exact (ex_intro _ enc (conj E (H Nz Hn))).
Qed.
Print Assumptions C52_roundtrip_refuted.
Theorem C52_roundtrip_partial : forall SymbolSize ECCSymbols data_size C data,
  good_config SymbolSize ECCSymbols data_size -> rs_construct SymbolSize ECCSymbols = Ret C -> object data_size data ->
  elems (field_of SymbolSize) (symbols SymbolSize data_size data) ->
  exists enc, encode SymbolSize ECCSymbols data_size C data = Ret enc /\
    (decode SymbolSize ECCSymbols data_size C enc = Ret (Some data) \/ decode SymbolSize ECCSymbols data_size C enc = UB UB_array_index) /\
    (all_zero data -> decode SymbolSize ECCSymbols data_size C enc = Ret (Some data)).
Proof.
  intros SS n ds C data Hc EC Ho Hs. destruct (codec_roundtrip SS n ds C data Hc EC Ho Hs) as (enc & E & D & Z & _).
  exact (ex_intro _ enc (conj E (conj D Z))).
Qed.
Print Assumptions C52_roundtrip_partial.
(* the configuration of AdvancedReedSolomon<uint8_t, 4, 4> *)
Example C52_nonvacuous : good_config 4 4 1 /\ (exists C, rs_construct 4 4 = Ret C) /\ object 1 [5] /\ elems (field_of 4) (symbols 4 1 [5]) /\
  ~ all_zero [5] /\ data_symbols 4 1 < 4.
Proof.
  split; [repeat split; try (vm_compute; auto; fail); cbv; discriminate|]. split.
  { destruct (rs_construct 4 4) as [c| | |] eqn:E; [exists c; reflexivity|exfalso|exfalso|exfalso].
    all: assert (H : match rs_construct 4 4 with Ret _ => true | _ => false end = true) by (vm_compute; reflexivity); rewrite E in H; discriminate. }
  split; [split; [reflexivity|repeat constructor]|]. split; [repeat constructor|]. split; [|reflexivity].
  intros H. inversion H. discriminate.
Qed.

(** C53 *)
Theorem C53_interleave_refuted : deinterleave (interleave [0; 255]) = [0; 0] /\ deinterleave (interleave [255]) = [1].
Proof. exact (conj eq_refl eq_refl). Qed.
Print Assumptions C53_interleave_refuted.
(* exactly which vectors survive: those whose set bits all have one of the n bit numbers the loops visit *)
Theorem C53_interleave_partial : forall data, Forall (fun b => b < 256) data ->
  let n := N.of_nat (length data) in let block_count := (n + 7) / 8 in
  (deinterleave (interleave data) = data <->
   forall i b, (i < length data)%nat -> N.testbit (nth i data 0) b = true ->
     N.of_nat i < block_count /\ b * block_count + N.of_nat i < n).
Proof. exact roundtrip_iff. Qed.
Print Assumptions C53_interleave_partial.
(* and what the others lose *)
Theorem C53_surviving_bits_partial : forall data i b,
  let n := N.of_nat (length data) in let block_count := (n + 7) / 8 in
  N.testbit (nth (N.to_nat i) (deinterleave (interleave data)) 0) b =
  (b <? 8) && (i <? block_count) && (b * block_count + i <? n) && N.testbit (nth (N.to_nat i) data 0) b.
Proof. exact roundtrip_bits. Qed.
Print Assumptions C53_surviving_bits_partial.
Example C53_nonvacuous : Forall (fun b => b < 256) [3; 0] /\ deinterleave (interleave [3; 0]) = [3; 0].
Proof. split; [repeat constructor|reflexivity]. Qed.

(** C83 *)
Theorem C83_syndromes_partial : forall p T msg nsym fuel, good_field p -> gf_construct p = Ret T -> elems p msg ->
  nsym < 255 -> nsym < 2 ^ fst p -> (N.to_nat nsym + 2 <= fuel)%nat ->
  exists s, rs_calc_syndromes_fuel (fst p) T fuel msg nsym = Ret s /\ length s = S (N.to_nat nsym) /\
  forall i, i <= nsym -> exists e, pow (fst p) T 2 i = Ret e /\ eval_poly (fst p) T msg e = Ret (nth (N.to_nat i) s 0).
Proof. exact syndromes_ok. Qed.
Print Assumptions C83_syndromes_partial.
(* uint8_t i <= 255 always holds: no number of iterations is enough *)
Theorem C83_nsym_255_refuted : forall T msg fuel, gf_construct GF1024 = Ret T -> elems GF1024 msg ->
  rs_calc_syndromes_fuel 10 T fuel msg 255 = OutOfFuel.
Proof. exact syndromes_255. Qed.
Print Assumptions C83_nsym_255_refuted.
Example C83_nonvacuous : elems GF16 [1; 2; 3] /\ match gf_construct GF16 with Ret T => rs_calc_syndromes_fuel 4 T 9 [1; 2; 3] 4 | _ => OutOfFuel end = Ret [0; 3; 8; 12; 0].
Proof. split; [unfold elems; repeat (apply Forall_cons; [reflexivity|]); apply Forall_nil|vm_compute; reflexivity]. Qed.

(** C84.  A received word is returned uncorrected when all syndromes vanish; otherwise undefined behaviour.  No word is ever corrected. *)
Theorem C84_no_correction_refuted : forall SymbolSize ECCSymbols data_size C enc,
  good_config SymbolSize ECCSymbols data_size -> rs_construct SymbolSize ECCSymbols = Ret C ->
  (N.to_nat (total_symbols SymbolSize ECCSymbols data_size * symbol_bytes SymbolSize) <= length enc)%nat ->
  elems (field_of SymbolSize) (elements SymbolSize (N.to_nat (total_symbols SymbolSize ECCSymbols data_size)) enc) ->
  decode SymbolSize ECCSymbols data_size C enc =
    Ret (Some (to_data SymbolSize data_size (firstn (N.to_nat (data_symbols SymbolSize data_size))
                (elements SymbolSize (N.to_nat (total_symbols SymbolSize ECCSymbols data_size)) enc)))) \/
  decode SymbolSize ECCSymbols data_size C enc = UB UB_array_index.
Proof. exact codec_decode. Qed.
Print Assumptions C84_no_correction_refuted.
Theorem C84_decode_partial : forall SymbolSize ECCSymbols data_size C enc,
  good_config SymbolSize ECCSymbols data_size -> rs_construct SymbolSize ECCSymbols = Ret C ->
  (N.to_nat (total_symbols SymbolSize ECCSymbols data_size * symbol_bytes SymbolSize) <= length enc)%nat ->
  elems (field_of SymbolSize) (elements SymbolSize (N.to_nat (total_symbols SymbolSize ECCSymbols data_size)) enc) ->
  let word := elements SymbolSize (N.to_nat (total_symbols SymbolSize ECCSymbols data_size)) enc in
  ((forall i, 1 <= i <= ECCSymbols -> exists e, pow (fst (field_of SymbolSize)) (ctab C) 2 i = Ret e /\
      eval_poly (fst (field_of SymbolSize)) (ctab C) word e = Ret 0) ->
   decode SymbolSize ECCSymbols data_size C enc = Ret (Some (to_data SymbolSize data_size (firstn (N.to_nat (data_symbols SymbolSize data_size)) word)))) /\
  (forall i e v, 1 <= i <= ECCSymbols -> pow (fst (field_of SymbolSize)) (ctab C) 2 i = Ret e ->
     eval_poly (fst (field_of SymbolSize)) (ctab C) word e = Ret v -> v <> 0 ->
   decode SymbolSize ECCSymbols data_size C enc = UB UB_array_index).
Proof. exact codec_decode_iff. Qed.
Print Assumptions C84_decode_partial.
Theorem C84_field_level_refuted : forall p T msg nsym, good_field p -> gf_construct p = Ret T -> elems p msg -> nsym < 255 -> nsym < 2 ^ fst p ->
  rs_correct_errors (fst p) T msg nsym = Ret (Some msg) \/ rs_correct_errors (fst p) T msg nsym = UB UB_array_index.
Proof. exact correct_errors. Qed.
Print Assumptions C84_field_level_refuted.
Example C84_nonvacuous : good_config 4 2 3 /\ (N.to_nat (total_symbols 4 2 3 * symbol_bytes 4) <= length [0; 7; 0; 0; 0])%nat /\
  elems (field_of 4) (elements 4 (N.to_nat (total_symbols 4 2 3)) [0; 7; 0; 0; 0]) /\
  (* one wrong symbol in the encoding of zeros; capability 1 *) correction_capability 2 = 1 /\
  match rs_construct 4 2 with Ret C => decode 4 2 3 C [0; 7; 0; 0; 0] | _ => Ret None end = UB UB_array_index.
Proof.
  split; [|split; [vm_compute; auto|split; [repeat constructor|split; vm_compute; reflexivity]]].
  repeat split; try (vm_compute; auto; fail); cbv; discriminate.
Qed.

(** C85 *)
Theorem C85_encode_refuted : forall SymbolSize ECCSymbols data_size C data,
  good_config SymbolSize ECCSymbols data_size -> 2 <= ECCSymbols < 2 ^ fst (field_of SymbolSize) - 1 ->
  rs_construct SymbolSize ECCSymbols = Ret C -> object data_size data ->
  ~ elems (field_of SymbolSize) (symbols SymbolSize data_size data) -> encode SymbolSize ECCSymbols data_size C data = UB UB_array_index.
Proof. exact codec_encode_ub. Qed.
Print Assumptions C85_encode_refuted.
Theorem C85_encode_partial : forall SymbolSize ECCSymbols data_size C data,
  good_config SymbolSize ECCSymbols data_size -> rs_construct SymbolSize ECCSymbols = Ret C -> object data_size data ->
  elems (field_of SymbolSize) (symbols SymbolSize data_size data) ->
  exists enc, encode SymbolSize ECCSymbols data_size C data = Ret enc.
Proof.
  intros SS n ds C data Hc EC Ho Hs. destruct (codec_roundtrip SS n ds C data Hc EC Ho Hs) as (enc & E & _). exact (ex_intro _ enc E).
Qed.
Print Assumptions C85_encode_partial.
Example C85_nonvacuous : good_config 4 4 4 /\ object 4 [0x0d; 0xf0; 0xad; 0x0b] /\ ~ elems (field_of 4) (symbols 4 4 [0x0d; 0xf0; 0xad; 0x0b]).
Proof.
  split; [repeat split; try (vm_compute; auto; fail); cbv; discriminate|]. split; [split; [reflexivity|repeat constructor]|].
  intros H. inversion_clear H as [|? ? _ H2]. inversion_clear H2 as [|? ? H _]. revert H. cbv. discriminate.
Qed.

(** C86 *)
Theorem C86_never_false_refuted : forall SymbolSize ECCSymbols data_size C enc,
  good_config SymbolSize ECCSymbols data_size -> rs_construct SymbolSize ECCSymbols = Ret C ->
  (N.to_nat (total_symbols SymbolSize ECCSymbols data_size * symbol_bytes SymbolSize) <= length enc)%nat ->
  elems (field_of SymbolSize) (elements SymbolSize (N.to_nat (total_symbols SymbolSize ECCSymbols data_size)) enc) ->
  is_correctable SymbolSize ECCSymbols data_size C enc = Ret true \/ is_correctable SymbolSize ECCSymbols data_size C enc = UB UB_array_index.
Proof. exact codec_correctable. Qed.
Print Assumptions C86_never_false_refuted.
Theorem C86_short_input_partial : forall SymbolSize ECCSymbols data_size C enc,
  N.of_nat (length enc) < total_symbols SymbolSize ECCSymbols data_size * symbol_bytes SymbolSize ->
  is_correctable SymbolSize ECCSymbols data_size C enc = Ret false /\ decode SymbolSize ECCSymbols data_size C enc = Ret None.
Proof. exact short_input. Qed.
Print Assumptions C86_short_input_partial.
Example C86_nonvacuous : match rs_construct 4 2 with Ret C => is_correctable 4 2 3 C [0; 7; 0; 0; 0] | _ => Ret false end = UB UB_array_index /\
  match rs_construct 4 2 with Ret C => is_correctable 4 2 3 C [0; 0; 0; 0; 0] | _ => Ret false end = Ret true.
Proof. split; vm_compute; reflexivity. Qed.

(** C87 *)
Theorem C87_chien_search : forall p T err_loc msg_len, good_field p -> gf_construct p = Ret T -> elems p err_loc -> err_loc <> [] ->
  N.of_nat (length err_loc) < 2 ^ 64 -> msg_len <= 2 ^ fst p ->
  exists mul inv ps, (forall a b, elem p a -> elem p b -> multiply (fst p) T a b = Ret (mul a b)) /\
    (forall a, elem p a -> a <> 0 -> inverse (fst p) T a = Ret (inv a)) /\ rs_find_errors (fst p) T err_loc msg_len = Ret ps /\
    let roots := filter (fun pos => value mul err_loc (inv (power mul 2 (msg_len - 1 - pos))) =? 0) (rev (map N.of_nat (seq 0 (N.to_nat msg_len)))) in
    ps = if Nat.eqb (length roots) (length err_loc - 1) then map Z.of_N roots else [].
Proof. exact find_errors. Qed.
Print Assumptions C87_chien_search.
Example C87_nonvacuous : elems GF16 [1; 8] /\ match gf_construct GF16 with Ret T => rs_find_errors 4 T [1; 8] 15 | _ => Ret [] end = Ret [2]%Z.
Proof. split; [unfold elems; repeat (apply Forall_cons; [reflexivity|]); apply Forall_nil|vm_compute; reflexivity]. Qed.
