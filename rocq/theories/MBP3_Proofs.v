(** The checksum scheme called REED_SOLOMON: it tells any two values apart. *)
From Coq Require Import List NArith ZArith Bool Lia.
Import ListNotations.
From Verif Require Import Outcome Words MBP_Model MBP_Spec MBP_Proofs MBP2_Proofs.
Local Open Scope N_scope.
Local Arguments N.add : simpl never.
Local Arguments N.mul : simpl never.
Local Arguments N.pow : simpl never.
Local Arguments N.lxor : simpl never.
Local Arguments N.shiftl : simpl never.
Local Arguments N.shiftr : simpl never.
Local Arguments N.testbit : simpl never.
Local Arguments wrap : simpl never.

Lemma land255 x : N.land x 255 = wrap 8 x.
Proof. change 255 with (N.ones 8). apply N.land_ones. Qed.
Lemma byte_lt v i : byte v i < 256.
Proof. unfold byte. rewrite land255. apply (wrap_lt 8). Qed.
Lemma byte_bit v i k : N.testbit (byte v i) k = (k <? 8) && N.testbit v (8 * i + k).
Proof. unfold byte. rewrite land255, wrap_testbit, N.shiftr_spec by lia. do 2 f_equal. lia. Qed.
Lemma word_bytes u v : word u -> word v -> (forall i, i < 4 -> byte u i = byte v i) -> u = v.
Proof.
  intros Hu Hv H. apply (bits_ext_below 32); [exact Hu|exact Hv|]. intros i Hi.
  pose proof (N.div_mod i 8 ltac:(lia)) as D. pose proof (N.mod_lt i 8 ltac:(lia)) as M.
  assert (Hq : i / 8 < 4) by (apply N.div_lt_upper_bound; lia).
  pose proof (f_equal (fun x => N.testbit x (i mod 8)) (H _ Hq)) as E. cbv beta in E. rewrite !byte_bit in E.
  replace (i mod 8 <? 8) with true in E by (symmetry; apply N.ltb_lt, M). rewrite <- D in E. exact E.
Qed.
Lemma set_byte_bit v i x k : x < 256 -> N.testbit (set_byte v i x) k = if k / 8 =? i then N.testbit x (k mod 8) else N.testbit v k.
Proof.
  intros Hx. unfold set_byte. rewrite N.lxor_spec. pose proof (N.div_mod k 8 ltac:(lia)) as D. pose proof (N.mod_lt k 8 ltac:(lia)) as M.
  set (q := k / 8) in *. set (r := k mod 8) in *. clearbody q r.
  destruct (N.eqb_spec q i) as [->|E].
  - rewrite N.shiftl_spec_high' by lia. replace (k - 8 * i) with r by lia. rewrite N.lxor_spec, byte_bit. replace (r <? 8) with true by (symmetry; apply N.ltb_lt, M).
    rewrite <- D. cbn [andb]. destruct (N.testbit v k), (N.testbit x r); reflexivity.
  - destruct (N.lt_ge_cases k (8 * i)) as [Lk|Gk].
    + rewrite N.shiftl_spec_low by exact Lk. apply xorb_false_r.
    + rewrite N.shiftl_spec_high' by exact Gk. rewrite N.lxor_spec, byte_bit, (testbit_above 8 x) by (try exact Hx; lia).
      replace (k - 8 * i <? 8) with false by (symmetry; apply N.ltb_ge; lia). apply xorb_false_r.
Qed.
Lemma set_byte_word v i x : word v -> i < 4 -> x < 256 -> word (set_byte v i x).
Proof.
  intros Hv Hi Hx. apply (below_of_bits 32). intros k Hk. rewrite set_byte_bit by exact Hx.
  destruct (N.eqb_spec (k / 8) i) as [E|E]; [|apply (testbit_above 32); [exact Hv|exact Hk]].
  exfalso. assert (4 <= k / 8) by (apply N.div_le_lower_bound; lia). lia.
Qed.
Lemma byte_set v i x k : x < 256 -> byte (set_byte v i x) k = if k =? i then x else byte v k.
Proof.
  intros Hx. apply N.bits_inj. intros b. rewrite byte_bit. destruct (N.ltb_spec b 8) as [Hb|Hb].
  - rewrite set_byte_bit by exact Hx. replace ((8 * k + b) / 8) with k by (rewrite N.mul_comm, N.div_add_l, N.div_small by lia; lia).
    replace ((8 * k + b) mod 8) with b by (rewrite N.add_comm, N.mul_comm, N.mod_add, N.mod_small by lia; reflexivity). cbn [andb].
    destruct (k =? i); [reflexivity|]. rewrite byte_bit. replace (b <? 8) with true by (symmetry; apply N.ltb_lt, Hb). reflexivity.
  - cbn [andb]. symmetry. destruct (k =? i); apply (testbit_above 8); try exact Hb; [exact Hx|apply byte_lt].
Qed.

Lemma wrap_xor_l w a b : wrap w (N.lxor (wrap w a) b) = wrap w (N.lxor a b).
Proof.
  apply N.bits_inj. intros k. rewrite !wrap_testbit, !N.lxor_spec, wrap_testbit. destruct (k <? w); reflexivity.
Qed.
Lemma wrap_xor w a b : wrap w (N.lxor a b) = N.lxor (wrap w a) (wrap w b).
Proof. apply N.bits_inj. intros k. rewrite N.lxor_spec, !wrap_testbit, N.lxor_spec. destruct (k <? w), (N.testbit a k), (N.testbit b k); reflexivity. Qed.
Lemma wrap_xor_l2 w a b c : wrap w (N.lxor (N.lxor (wrap w a) b) c) = wrap w (N.lxor (N.lxor a b) c).
Proof. apply N.bits_inj. intros k. rewrite !wrap_testbit, !N.lxor_spec, wrap_testbit. destruct (k <? w); reflexivity. Qed.
Lemma wrap_xor_l3 w a b c d : wrap w (N.lxor (N.lxor (N.lxor (wrap w a) b) c) d) = wrap w (N.lxor (N.lxor (N.lxor a b) c) d).
Proof. apply N.bits_inj. intros k. rewrite !wrap_testbit, !N.lxor_spec, wrap_testbit. destruct (k <? w); reflexivity. Qed.
Definition f0 (a b c d : N) : N := N.lxor (N.lxor (N.lxor a b) c) d.
Definition f1 (a b c d : N) : N := wrap 8 (N.lxor (N.lxor (N.lxor a (N.shiftl b 1)) (N.shiftl c 2)) (N.shiftl d 3)).
Definition f2 (a b c d : N) : N := N.lxor (N.lxor (N.lxor a (N.shiftr b 1)) (N.shiftr c 2)) (N.shiftr d 3).
Definition f3 (a b c d : N) : N := wrap 8 (N.lxor (N.lxor (N.lxor (a * 1) (b * 2)) (c * 3)) (d * 4)).
Definition on (f : N -> N -> N -> N -> N) (v : N) : N := f (byte v 0) (byte v 1) (byte v 2) (byte v 3).
Lemma checks_spec v : checks v = [on f0 v; on f1 v; on f2 v; on f3 v].
Proof.
  unfold checks, on. cbn [for_up]. change (0 + 1) with 1. change (1 + 1) with 2. change (2 + 1) with 3. change (0 mod 4) with 0. change (1 mod 4) with 1. change (2 mod 4) with 2. change (3 mod 4) with 3. change (3 + 1) with 4.
  unfold lget. change (N.to_nat 0) with 0%nat. change (N.to_nat 1) with 1%nat. change (N.to_nat 2) with 2%nat. change (N.to_nat 3) with 3%nat. cbn [nth].
  rewrite !wrap_xor_l, !wrap_xor_l2, !N.lxor_0_l, !N.shiftl_0_r, N.shiftr_0_r. reflexivity.
Qed.
Lemma xor_swap a b c d : N.lxor (N.lxor a b) (N.lxor c d) = N.lxor (N.lxor a c) (N.lxor b d).
Proof. rewrite !N.lxor_assoc. f_equal. rewrite <- !N.lxor_assoc, (N.lxor_comm b c). reflexivity. Qed.
Lemma f0_xor a b c d a' b' c' d' : f0 (N.lxor a a') (N.lxor b b') (N.lxor c c') (N.lxor d d') = N.lxor (f0 a b c d) (f0 a' b' c' d').
Proof. unfold f0. rewrite !(xor_swap _ a'), !(xor_swap _ _ c), !(xor_swap _ _ d). reflexivity. Qed.
Lemma f1_xor a b c d a' b' c' d' : f1 (N.lxor a a') (N.lxor b b') (N.lxor c c') (N.lxor d d') = N.lxor (f1 a b c d) (f1 a' b' c' d').
Proof. unfold f1. rewrite !N.shiftl_lxor, <- wrap_xor. f_equal. rewrite !(xor_swap _ a'), !(xor_swap _ _ (N.shiftl c 2)), !(xor_swap _ _ (N.shiftl d 3)). reflexivity. Qed.
Lemma f2_xor a b c d a' b' c' d' : f2 (N.lxor a a') (N.lxor b b') (N.lxor c c') (N.lxor d d') = N.lxor (f2 a b c d) (f2 a' b' c' d').
Proof. unfold f2. rewrite !N.shiftr_lxor. rewrite !(xor_swap _ a'), !(xor_swap _ _ (N.shiftr c 2)), !(xor_swap _ _ (N.shiftr d 3)). reflexivity. Qed.
Lemma diff_zero (f : N -> N -> N -> N -> N) u v : (forall a b c d a' b' c' d', f (N.lxor a a') (N.lxor b b') (N.lxor c c') (N.lxor d d') = N.lxor (f a b c d) (f a' b' c' d')) ->
  on f u = on f v -> f (N.lxor (byte u 0) (byte v 0)) (N.lxor (byte u 1) (byte v 1)) (N.lxor (byte u 2) (byte v 2)) (N.lxor (byte u 3) (byte v 3)) = 0.
Proof. intros L E. rewrite L. unfold on in E. rewrite E. apply N.lxor_nilpotent. Qed.

(** the hash *)
Definition hsum (b0 b1 b2 b3 : Z) : Z := (35937 * b0 + 1089 * b1 + 33 * b2 + b3)%Z.
Lemma hash_mod v : hash32 v = (0x5555 * 1185921 + (35937 * byte v 0 + 1089 * byte v 1 + 33 * byte v 2 + byte v 3)) mod 2 ^ 32.
Proof.
  unfold hash32. cbn [for_up]. change (0 + 1) with 1. change (1 + 1) with 2. change (2 + 1) with 3.
  assert (S : forall h b, wrap 32 (wrap 32 (wrap 32 (N.shiftl h 5) + h) + b) = (h * 33 + b) mod 2 ^ 32).
  { intros h b. unfold wrap. rewrite N.shiftl_mul_pow2. change (2 ^ 5) with 32. rewrite N.add_mod_idemp_l by (cbv; discriminate).
    rewrite <- N.add_assoc. rewrite N.add_mod_idemp_l by (cbv; discriminate). f_equal. lia. }
  assert (T : forall x b, ((x mod 2 ^ 32) * 33 + b) mod 2 ^ 32 = (x * 33 + b) mod 2 ^ 32).
  { intros x b. rewrite <- N.add_mod_idemp_l by (cbv; discriminate). rewrite N.mul_mod_idemp_l by (cbv; discriminate). rewrite N.add_mod_idemp_l by (cbv; discriminate). reflexivity. }
  assert (T2 : forall x b c, (((x mod 2 ^ 32) * 33 + b) * 33 + c) mod 2 ^ 32 = ((x * 33 + b) * 33 + c) mod 2 ^ 32).
  { intros x b c. rewrite <- (T ((x mod 2 ^ 32) * 33 + b)), (T x b). apply T. }
  rewrite !S. rewrite !T, !T2. f_equal. lia.
Qed.
Lemma hash_sum u v : hash32 u = hash32 v ->
  (35937 * (Z.of_N (byte u 0) - Z.of_N (byte v 0)) + 1089 * (Z.of_N (byte u 1) - Z.of_N (byte v 1)) + 33 * (Z.of_N (byte u 2) - Z.of_N (byte v 2)) + (Z.of_N (byte u 3) - Z.of_N (byte v 3)) = 0)%Z.
Proof.
  rewrite !hash_mod. pose proof (byte_lt u 0). pose proof (byte_lt u 1). pose proof (byte_lt u 2). pose proof (byte_lt u 3).
  pose proof (byte_lt v 0). pose proof (byte_lt v 1). pose proof (byte_lt v 2). pose proof (byte_lt v 3). intros E.
  set (a := 0x5555 * 1185921 + (35937 * byte u 0 + 1089 * byte u 1 + 33 * byte u 2 + byte u 3)) in *.
  set (b := 0x5555 * 1185921 + (35937 * byte v 0 + 1089 * byte v 1 + 33 * byte v 2 + byte v 3)) in *.
  pose proof (N.div_mod a (2 ^ 32) ltac:(cbv; discriminate)) as Da. pose proof (N.div_mod b (2 ^ 32) ltac:(cbv; discriminate)) as Db. rewrite E in Da.
  set (q := a / 2 ^ 32) in *. set (q' := b / 2 ^ 32) in *. set (r := b mod 2 ^ 32) in *. clearbody q q' r. change (2 ^ 32) with 4294967296 in *. lia.
Qed.

(** enumerations *)
Definition bytes : list N := map N.of_nat (seq 0 256).
Lemma in_bytes x : x < 256 -> In x bytes.
Proof. intros H. unfold bytes. apply in_map_iff. exists (N.to_nat x). split; [apply N2Nat.id|apply in_seq; lia]. Qed.
Definition pre (r : N) : N := fold_left (fun a k => wrap 8 (N.lxor a (N.shiftl r k))) [1; 2; 3; 4; 5; 6; 7] r.
Lemma pre_spec e : e < 256 -> pre (wrap 8 (N.lxor e (N.shiftl e 1))) = e.
Proof.
  intros H. assert (C : forallb (fun e => pre (wrap 8 (N.lxor e (N.shiftl e 1))) =? e) bytes = true) by (vm_compute; reflexivity).
  rewrite forallb_forall in C. apply N.eqb_eq, C, in_bytes, H.
Qed.
Definition zdiff (e v : N) : Z := (Z.of_N (N.lxor v e) - Z.of_N v)%Z.
Definition dl (e : N) : list Z := nodup Z.eq_dec (map (zdiff e) bytes).
Lemma dl_in e v : v < 256 -> In (zdiff e v) (dl e).
Proof. intros H. apply nodup_In, in_map, in_bytes, H. Qed.
(* no zero sum among the differences *)
Definition chk_d (l0 l1 l2 l3 : list Z) : bool :=
  forallb (fun d3 => if (d3 mod 33 =? 0)%Z then let t3 := (d3 / 33)%Z in
  forallb (fun d2 => if ((t3 + d2) mod 33 =? 0)%Z then let t2 := ((t3 + d2) / 33)%Z in
  forallb (fun d1 => if ((t2 + d1) mod 33 =? 0)%Z then let t1 := ((t2 + d1) / 33)%Z in
  forallb (fun d0 => negb (t1 + d0 =? 0)%Z) l0 else true) l1 else true) l2 else true) l3.
Lemma chk_d_spec l0 l1 l2 l3 d0 d1 d2 d3 : chk_d l0 l1 l2 l3 = true -> In d0 l0 -> In d1 l1 -> In d2 l2 -> In d3 l3 ->
  (35937 * d0 + 1089 * d1 + 33 * d2 + d3 <> 0)%Z.
Proof.
  intros C I0 I1 I2 I3 E. unfold chk_d in C. rewrite forallb_forall in C. specialize (C d3 I3).
  assert (D3 : (d3 = 33 * (- (1089 * d0 + 33 * d1 + d2)))%Z) by lia.
  replace (d3 mod 33)%Z with 0%Z in C by (rewrite D3, Z.mul_comm, Z_mod_mult; reflexivity). cbn [Z.eqb] in C. rewrite forallb_forall in C. specialize (C d2 I2). cbv beta zeta in C.
  assert (Q3 : (d3 / 33 = - (1089 * d0 + 33 * d1 + d2))%Z) by (rewrite D3, Z.mul_comm, Z_div_mult; lia). rewrite Q3 in C.
  replace (- (1089 * d0 + 33 * d1 + d2) + d2)%Z with ((- (33 * d0 + d1)) * 33)%Z in C by lia. rewrite Z_mod_mult in C. cbn [Z.eqb] in C. rewrite Z_div_mult in C by lia.
  rewrite forallb_forall in C. specialize (C d1 I1). cbv beta zeta in C. replace (- (33 * d0 + d1) + d1)%Z with ((- d0) * 33)%Z in C by lia. rewrite Z_mod_mult in C. cbn [Z.eqb] in C. rewrite Z_div_mult in C by lia.
  rewrite forallb_forall in C. specialize (C d0 I0). cbv beta zeta in C. replace (- d0 + d0 =? 0)%Z with true in C by (symmetry; apply Z.eqb_eq; lia). discriminate.
Qed.
(* the same with the values, for the one pattern that has a zero sum *)
Definition chk_v (e0 e1 e2 e3 : N) : bool :=
  forallb (fun v3 => let d3 := zdiff e3 v3 in if (d3 mod 33 =? 0)%Z then let t3 := (d3 / 33)%Z in
  forallb (fun v2 => let d2 := zdiff e2 v2 in if ((t3 + d2) mod 33 =? 0)%Z then let t2 := ((t3 + d2) / 33)%Z in
  forallb (fun v1 => let d1 := zdiff e1 v1 in if ((t2 + d1) mod 33 =? 0)%Z then let t1 := ((t2 + d1) / 33)%Z in
  forallb (fun v0 => if (t1 + zdiff e0 v0 =? 0)%Z then negb (f3 (N.lxor v0 e0) (N.lxor v1 e1) (N.lxor v2 e2) (N.lxor v3 e3) =? f3 v0 v1 v2 v3) else true) bytes else true) bytes else true) bytes else true) bytes.
Lemma chk_v_spec e0 e1 e2 e3 v0 v1 v2 v3 : chk_v e0 e1 e2 e3 = true -> v0 < 256 -> v1 < 256 -> v2 < 256 -> v3 < 256 ->
  (35937 * zdiff e0 v0 + 1089 * zdiff e1 v1 + 33 * zdiff e2 v2 + zdiff e3 v3 = 0)%Z ->
  f3 (N.lxor v0 e0) (N.lxor v1 e1) (N.lxor v2 e2) (N.lxor v3 e3) <> f3 v0 v1 v2 v3.
Proof.
  intros C I0 I1 I2 I3 E. apply in_bytes in I0, I1, I2, I3. unfold chk_v in C. rewrite forallb_forall in C. specialize (C v3 I3).
  set (d0 := zdiff e0 v0) in *. set (d1 := zdiff e1 v1) in *. set (d2 := zdiff e2 v2) in *. set (d3 := zdiff e3 v3) in *. cbv beta zeta in C.
  assert (D3 : (d3 = 33 * (- (1089 * d0 + 33 * d1 + d2)))%Z) by lia. fold d3 in C.
  replace (d3 mod 33)%Z with 0%Z in C by (rewrite D3, Z.mul_comm, Z_mod_mult; reflexivity). cbn [Z.eqb] in C. rewrite forallb_forall in C. specialize (C v2 I2). cbv beta zeta in C. fold d2 in C.
  assert (Q3 : (d3 / 33 = - (1089 * d0 + 33 * d1 + d2))%Z) by (rewrite D3, Z.mul_comm, Z_div_mult; lia). rewrite Q3 in C.
  replace (- (1089 * d0 + 33 * d1 + d2) + d2)%Z with ((- (33 * d0 + d1)) * 33)%Z in C by lia. rewrite Z_mod_mult in C. cbn [Z.eqb] in C. rewrite Z_div_mult in C by lia.
  rewrite forallb_forall in C. specialize (C v1 I1). cbv beta zeta in C. fold d1 in C. replace (- (33 * d0 + d1) + d1)%Z with ((- d0) * 33)%Z in C by lia. rewrite Z_mod_mult in C. cbn [Z.eqb] in C. rewrite Z_div_mult in C by lia.
  rewrite forallb_forall in C. specialize (C v0 I0). cbv beta zeta in C. fold d0 in C. replace (- d0 + d0 =? 0)%Z with true in C by (symmetry; apply Z.eqb_eq; lia).
  intros Q. rewrite Q, N.eqb_refl in C. discriminate.
Qed.
Definition chk_e4 (e0 e1 e2 e3 : N) : bool :=
  if negb (f2 e0 e1 e2 e3 =? 0) then true
  else if (e0 =? 0) && (e1 =? 0) && (e2 =? 0) && (e3 =? 0) then true
  else if (e2 =? 0xbd) && (e3 =? 0x7e) then chk_v e0 e1 e2 e3
  else chk_d (dl e0) (dl e1) (dl e2) (dl e3).
Definition e1of (e2 e3 : N) : N := pre (wrap 8 (N.lxor (N.lxor e2 e3) (N.lxor (N.shiftl e2 2) (N.shiftl e3 3)))).
Lemma all_chk : forallb (fun e3 => forallb (fun e2 => chk_e4 (N.lxor (N.lxor (e1of e2 e3) e2) e3) (e1of e2 e3) e2 e3) bytes) bytes = true.
Proof. vm_cast_no_check (eq_refl true). Qed.
