(** The statements about the concrete instances. *)
From Coq Require Import List NArith ZArith Bool Lia.
Import ListNotations.
From Verif Require Import Outcome Words GF_Model GF_Spec GF_Proofs GFPoly_Proofs RS_Proofs RS2_Proofs.
Local Open Scope N_scope.
Local Arguments N.add : simpl never.
Local Arguments N.mul : simpl never.
Local Arguments N.pow : simpl never.
Local Arguments N.lxor : simpl never.

Lemma good_ok p T : good_field p -> gf_construct p = Ret T -> gf_ok (fst p) (snd p) T.
Proof. intros [-> | ->] E; [apply gf16_ok|apply gf1024_ok]; exact E. Qed.
Lemma good_constructs p : good_field p -> exists T, gf_construct p = Ret T.
Proof.
  intros [-> | ->].
  - assert (H : match gf_construct GF16 with Ret _ => true | _ => false end = true) by (vm_compute; reflexivity).
    destruct (gf_construct GF16); try discriminate. eauto.
  - assert (H : match gf_construct GF1024 with Ret _ => true | _ => false end = true) by (vm_compute; reflexivity).
    destruct (gf_construct GF1024); try discriminate. eauto.
Qed.
Lemma al_1 m P T : gf_ok m P T -> al m P 1 = 2.
Proof.
  intros OK. pose proof (two_lt m P T OK) as H. change (xt m P 1 = 2). unfold xt.
  destruct (N.testbit 1 (m - 1)) eqn:E; [|reflexivity]. rewrite testbit_1 in E. apply N.eqb_eq in E. pose proof (ok_m m P T OK).
  assert (m = 1) by lia. subst m. change (2 ^ 1) with 2 in H. lia.
Qed.
Lemma field p T : good_field p -> gf_construct p = Ret T -> exists mul inv, field_laws (elem p) mul inv /\
  (forall a b, elem p a -> elem p b -> multiply (fst p) T a b = Ret (mul a b)) /\
  (forall a b, elem p a -> elem p b -> divide (fst p) T a b = if b =? 0 then Throw E_domain_error else Ret (mul a (inv b))) /\
  (forall a, elem p a -> inverse (fst p) T a = if a =? 0 then Throw E_domain_error else Ret (inv a)) /\
  (forall a n, elem p a -> n * (2 ^ fst p - 2) < 2 ^ 32 -> pow (fst p) T a n = Ret (power mul a n)) /\
  (forall a b, elem p a -> elem p b -> remainder_of (fst p) (snd p) (pmul a b) (mul a b)).
Proof.
  intros Hp E. pose proof (good_ok p T Hp E) as OK. destruct p as [m P]. cbn [fst snd] in *. unfold elem. cbn [fst].
  exists (ms m P), (inv m P T). split; [apply (laws m P T OK)|]. split; [apply (mul_spec m P T OK)|]. split; [|split; [|split]].
  - intros a b Ha Hb. destruct (N.eqb_spec b 0) as [->|Nb]; [reflexivity|]. apply (divide_spec m P T OK); assumption.
  - intros a Ha. destruct (N.eqb_spec a 0) as [->|Na]; [reflexivity|]. apply (inverse_spec m P T OK); assumption.
  - intros a n Ha Hn. apply (pow_spec m P T OK); [exact Ha|]. destruct (N.eq_dec a 0) as [->|Na].
    + assert (Z : forall q, gf_construct q = Ret T -> good_field q -> nth 0 (log_table T) 0 = 0).
      { intros q Eq [-> | ->].
        - assert (Z : match gf_construct GF16 with Ret T => nth 0 (log_table T) 0 =? 0 | _ => true end = true) by (vm_compute; reflexivity). rewrite Eq in Z. apply N.eqb_eq, Z.
        - assert (Z : match gf_construct GF1024 with Ret T => nth 0 (log_table T) 0 =? 0 | _ => true end = true) by (vm_compute; reflexivity). rewrite Eq in Z. apply N.eqb_eq, Z. }
      unfold lg. change (N.to_nat 0) with 0%nat. rewrite (Z (m, P) E Hp). reflexivity.
    + destruct (lg_al m P T OK a Ha Na) as [_ Hl]. eapply N.le_lt_trans; [|exact Hn]. rewrite N.mul_comm. apply N.mul_le_mono_l. lia.
  - intros a b Ha Hb. apply eqv_remainder; [apply ms_eqv|apply (gm_lt m P T OK), Ha].
Qed.
Lemma remainder_unique m P x r r' : 2 ^ m <= P < 2 ^ (m + 1) -> remainder_of m P x r -> remainder_of m P x r' -> r = r'.
Proof.
  intros HP [Hr [q E]] [Hr' [q' E']]. assert (D : pmul (N.lxor q q') P = N.lxor r r').
  { rewrite pmul_xor. rewrite E in E'. clear - E'.
    assert (H : N.lxor (N.lxor (pmul q P) r) (N.lxor (pmul q' P) r') = 0) by (rewrite E'; apply N.lxor_nilpotent).
    rewrite xor4 in H. apply N.lxor_eq in H. exact H. }
  (* a nonzero multiple of P has degree at least m *)
  assert (K : forall a p, a <> 0 -> N.log2 (pmul_pos a p) = N.log2 a + N.log2 (N.pos p) /\ pmul_pos a p <> 0).
  { intros a p Ha. induction p as [p IH|p IH|]; cbn [pmul_pos].
    - destruct IH as [IH Nz].
      assert (L2 : N.log2 (2 * pmul_pos a p) = N.succ (N.log2 a + N.log2 (N.pos p))) by (rewrite N.log2_double by lia; rewrite IH; reflexivity).
      assert (LL : N.log2 a < N.log2 (2 * pmul_pos a p)) by (rewrite L2; lia).
      assert (X : N.log2 (N.lxor a (2 * pmul_pos a p)) = N.log2 (2 * pmul_pos a p)).
      { apply N.log2_bits_unique.
        - rewrite N.lxor_spec, N.bit_log2 by lia. rewrite N.bits_above_log2 by exact LL. reflexivity.
        - intros i Hi. rewrite N.lxor_spec, !N.bits_above_log2 by lia. reflexivity. }
      split.
      + rewrite X, L2. change (N.pos p~1) with (2 * N.pos p + 1). rewrite N.log2_succ_double by lia. lia.
      + intros Z. rewrite Z in X. cbn in X. lia.
    - destruct IH as [IH Nz]. rewrite N.log2_double by lia. split; [|lia]. rewrite IH.
      change (N.pos p~0) with (2 * N.pos p). rewrite N.log2_double by lia. lia.
    - cbn. split; [lia|exact Ha]. }
  destruct (N.eq_dec (N.lxor q q') 0) as [Z|NZ].
  - rewrite Z, pmul_0_l in D. symmetry in D. apply N.lxor_eq, D.
  - exfalso. assert (HP0 : P <> 0) by (assert (0 < 2 ^ m) by (apply N.neq_0_lt_0, N.pow_nonzero; lia); lia).
    destruct P as [|p]; [contradiction|]. cbn [pmul] in D. destruct (K _ p NZ) as [K1 K2]. rewrite D in K1, K2.
    pose proof (xor_lt m r r' Hr Hr') as B. assert (LP : N.log2 (N.pos p) = m) by (apply N.log2_unique; [lia|rewrite <- N.add_1_r; exact HP]).
    assert (N.log2 (N.lxor r r') < m) by (apply N.log2_lt_pow2; lia). lia.
Qed.
Lemma pow_wrong : exists T, gf_construct GF16 = Ret T /\ exists mul inv, field_laws (elem GF16) mul inv /\
  (forall a b, elem GF16 a -> elem GF16 b -> multiply 4 T a b = Ret (mul a b)) /\
  pow 4 T 2 (2 ^ 31) = Ret (power mul 2 (2 ^ 31)) /\
  exists n, n < 2 ^ 32 /\ exists r, pow 4 T 9 n = Ret r /\ r <> power mul 9 n.
Proof.
  destruct (good_constructs GF16 (or_introl eq_refl)) as [T E]. exists T. split; [exact E|].
  pose proof (gf16_ok T E) as OK. exists (ms 4 0x13), (inv 4 0x13 T). split; [apply (laws 4 0x13 T OK)|].
  split; [intros a b Ha Hb; apply (mul_spec 4 0x13 T OK); assumption|].
  assert (L : lg T 9 = 14%nat /\ lg T 2 = 1%nat).
  { assert (Z : match gf_construct GF16 with Ret T => Nat.eqb (lg T 9) 14 && Nat.eqb (lg T 2) 1 | _ => true end = true) by (vm_compute; reflexivity). rewrite E in Z.
    apply andb_prop in Z. destruct Z as [Z1 Z2]. split; apply Nat.eqb_eq; assumption. }
  destruct L as [L9 L2].
  split; [apply (pow_spec 4 0x13 T OK); [reflexivity|rewrite L2; reflexivity]|].
  exists 306783379. split; [reflexivity|]. rewrite (pow_al 4 0x13 T OK) by (reflexivity || discriminate). eexists. split; [reflexivity|]. rewrite L9.
  destruct (lg_al 4 0x13 T OK 9 eq_refl ltac:(discriminate)) as [A _]. rewrite L9 in A. rewrite <- A at 1. rewrite (power_al 4 0x13 T OK).
  rewrite <- (al_mod 4 0x13 T OK (14 * N.to_nat 306783379)), <- (al_mod 4 0x13 T OK (Z.to_nat _)).
  change (N.to_nat (2 ^ 4) - 1)%nat with 15%nat.
  assert (X : (Z.to_nat ((Z.of_nat 14 * Z.of_N 306783379) mod 2 ^ 32) mod 15 = 10)%nat).
  { apply Nat2Z.inj. rewrite Nat2Z.inj_mod, Z2Nat.id by (apply Z.mod_pos_bound; reflexivity). vm_compute. reflexivity. }
  assert (Y : ((14 * N.to_nat 306783379) mod 15 = 11)%nat).
  { apply Nat2Z.inj. rewrite Nat2Z.inj_mod, Nat2Z.inj_mul, N_nat_Z. vm_compute. reflexivity. }
  rewrite X, Y. vm_compute. discriminate.
Qed.
Lemma generator p T n : good_field p -> gf_construct p = Ret T -> n <= 2 ^ fst p ->
  exists g, rs_generator_poly (fst p) T n = Ret g /\ length g = S (N.to_nat n) /\ hd 0 g = 1 /\ elems p g /\
  forall x, elem p x -> exists v, eval_poly (fst p) T g x = Ret v /\ (v = 0 <-> exists i, i < n /\ pow (fst p) T 2 i = Ret x).
Proof.
  intros Hp E Hn. pose proof (good_ok p T Hp E) as OK. destruct p as [m P]. cbn [fst snd] in *.
  exists (gen m P (N.to_nat n)). pose proof (gen_els m P T OK (N.to_nat n)) as Eg. pose proof (order_ord m P T OK) as OO. pose proof (two_lt m P T OK) as T2.
  split; [apply (generator_spec m P T OK); lia|]. split; [apply gen_length|]. split; [apply gen_monic|]. split; [exact Eg|].
  intros x Hx. unfold elem in Hx. cbn [fst] in Hx. exists (value (ms m P) (gen m P (N.to_nat n)) x). split; [apply (eval_spec m P T OK); assumption|].
  rewrite (gen_value m P T OK) by exact Hx.
  assert (PW : forall i, i < n -> pow m T 2 i = Ret (al m P (N.to_nat i))).
  { intros i Hi. pose proof (al_1 m P T OK) as A1. rewrite (pow_spec m P T OK); [|lia|].
    - rewrite <- A1. rewrite (power_al m P T OK). do 2 f_equal. lia.
    - assert (Z1 : lg T 2 = 1%nat).
      { assert (Hb : (1 < N.to_nat (2 ^ m) - 1)%nat) by lia. destruct (lg_al m P T OK 2 ltac:(lia) ltac:(discriminate)) as [B1 B2].
        apply (al_inj m P T OK); auto. congruence. }
      rewrite Z1. pose proof (ok_u16 m P T OK). change (2 ^ 32) with 4294967296. lia. }
  split.
  - intros (i & Hi & ->). exists (N.of_nat i). split; [lia|]. rewrite PW by lia. rewrite Nat2N.id. reflexivity.
  - intros (i & Hi & Q). rewrite PW in Q by exact Hi. injection Q as <-. exists (N.to_nat i). split; [lia|reflexivity].
Qed.
Lemma generator_ub p T n : good_field p -> gf_construct p = Ret T -> 2 ^ fst p < n -> rs_generator_poly (fst p) T n = UB UB_array_index.
Proof.
  intros Hp E Hn. pose proof (good_ok p T Hp E) as OK. destruct p as [m P]. cbn [fst snd] in *.
  pose proof (order_ord m P T OK) as OO. pose proof (two_lt m P T OK) as T2. unfold rs_generator_poly.
  apply (loop_ub (fun i g => g = gen m P (Z.to_nat i)) _ UB_array_index _ _ _ (order m + 1)%Z); [reflexivity|lia| |].
  - intros j g Hj ->. rewrite (generator_step m P T OK).
    + eexists. split; [reflexivity|]. replace (Z.to_nat (j + 1)) with (S (Z.to_nat j)) by lia. reflexivity.
    + apply (gen_els m P T OK).
    + intros Z. pose proof (gen_length m P (Z.to_nat j)) as Lg. rewrite Z in Lg. discriminate.
    + lia.
  - intros g ->. rewrite (gen_length m P). cbn [loop]. rewrite get_ret by (rewrite app_length, (gen_length m P); cbn [length]; lia). cbn [obind].
    rewrite get_ret by (rewrite (gen_length m P); lia). cbn [obind]. unfold expt. rewrite get_ub by (rewrite (ok_explen m P T OK); lia). reflexivity.
Qed.
Lemma config_cases SS n ds : good_config SS n ds -> good_field (field_of SS) /\ (Z.of_N n <= order (fst (field_of SS)))%Z /\
  2 ^ fst (field_of SS) <= 2 ^ (8 * symbol_bytes SS).
Proof.
  intros ([-> | H] & H1 & H2 & H3).
  - split; [left; reflexivity|]. split; [|cbv; discriminate]. change (fst (field_of 4)) with 4 in *. change (order 4) with 15%Z. change (2 ^ 4) with 16 in H3. lia.
  - assert (E : field_of SS = GF1024) by (unfold field_of; destruct (N.eqb_spec SS 8); [lia|]; destruct (N.eqb_spec SS 4); [lia|reflexivity]).
    rewrite E in *. split; [right; reflexivity|]. cbn [fst GF1024] in *. change (order 10) with 1023%Z. split; [lia|].
    unfold symbol_bytes. destruct (N.leb_spec SS 8); [lia|]. cbv. discriminate.
Qed.
Lemma config_construct SS n ds : good_config SS n ds -> exists T, gf_construct (field_of SS) = Ret T /\
  gf_ok (fst (field_of SS)) (snd (field_of SS)) T /\ rs_construct SS n = Ret (mkc T (gen (fst (field_of SS)) (snd (field_of SS)) (N.to_nat n))).
Proof.
  intros H. destruct (config_cases SS n ds H) as (G & O & S). destruct (good_constructs _ G) as [T E]. exists T. split; [exact E|].
  pose proof (good_ok _ T G E) as OK. split; [exact OK|]. destruct H as (_ & Hds & Hn & _).
  apply (construct_spec _ _ T OK SS n ds (surjective_pairing _) Hn O Hds S E).
Qed.
Lemma codec_roundtrip SS n ds C data : good_config SS n ds -> rs_construct SS n = Ret C -> object ds data ->
  elems (field_of SS) (symbols SS ds data) ->
  exists enc, encode SS n ds C data = Ret enc /\
    (decode SS n ds C enc = Ret (Some data) \/ decode SS n ds C enc = UB UB_array_index) /\
    (all_zero data -> decode SS n ds C enc = Ret (Some data)) /\
    (~ all_zero data -> data_symbols SS ds < n -> decode SS n ds C enc = UB UB_array_index).
Proof.
  intros Hc EC [Ld Hb] Hs. destruct (config_construct SS n ds Hc) as (T & E & OK & EC'). rewrite EC' in EC. injection EC as <-.
  destruct (config_cases SS n ds Hc) as (_ & O & S). destruct Hc as (_ & Hds & Hn & _).
  apply (roundtrip _ _ T OK SS n ds (surjective_pairing _) Hn O Hds S data); [lia|exact Hb|exact Hs].
Qed.
Lemma codec_encode_ub SS n ds C data : good_config SS n ds -> 2 <= n < 2 ^ fst (field_of SS) - 1 -> rs_construct SS n = Ret C -> object ds data ->
  ~ elems (field_of SS) (symbols SS ds data) -> encode SS n ds C data = UB UB_array_index.
Proof.
  intros Hc Hn2 EC [Ld Hb] Hs. destruct (config_construct SS n ds Hc) as (T & E & OK & EC'). rewrite EC' in EC. injection EC as <-.
  destruct (config_cases SS n ds Hc) as (_ & O & S). destruct Hc as (_ & Hds & Hn & _).
  set (m := fst (field_of SS)) in *. unfold elems, elem in Hs. fold m in Hs.
  assert (Hex : forall l, ~ Forall (fun x => x < 2 ^ m) l -> exists i, (i < length l)%nat /\ 2 ^ m <= nth i l 0 /\ forall j, (j < i)%nat -> nth j l 0 < 2 ^ m).
  { clear. induction l as [|x l IH]; intros H; [exfalso; apply H; constructor|]. destruct (N.lt_ge_cases x (2 ^ m)) as [Hx|Hx].
    - destruct IH as (i & Hi & B & G); [intros F; apply H; constructor; assumption|]. exists (Datatypes.S i). cbn [length nth]. split; [lia|]. split; [exact B|].
      intros [|j] Hj; [exact Hx|apply G; lia].
    - exists 0%nat. cbn [length nth]. split; [lia|]. split; [exact Hx|]. lia. }
  destruct (Hex _ Hs) as (i & Hi & B & G). unfold symbols in Hi. rewrite elements_length in Hi.
  apply (encode_ub m (snd (field_of SS)) T OK SS n ds (surjective_pairing _) Hn Hds S data i Hi); [lia|lia|exact B|exact G].
Qed.
Lemma codec_decode SS n ds C enc : good_config SS n ds -> rs_construct SS n = Ret C ->
  (N.to_nat (total_symbols SS n ds * symbol_bytes SS) <= length enc)%nat ->
  elems (field_of SS) (elements SS (N.to_nat (total_symbols SS n ds)) enc) ->
  decode SS n ds C enc = Ret (Some (to_data SS ds (firstn (N.to_nat (data_symbols SS ds)) (elements SS (N.to_nat (total_symbols SS n ds)) enc)))) \/
  decode SS n ds C enc = UB UB_array_index.
Proof.
  intros Hc EC Hl Hs. destruct (config_construct SS n ds Hc) as (T & E & OK & EC'). rewrite EC' in EC. injection EC as <-.
  destruct (config_cases SS n ds Hc) as (_ & O & S). destruct Hc as (_ & Hds & Hn & _). unfold total_symbols in *.
  replace (N.to_nat (data_symbols SS ds + n)) with (N.to_nat (data_symbols SS ds) + N.to_nat n)%nat in * by lia.
  destruct (decode_spec _ _ T OK SS n ds (surjective_pairing _) Hn O Hds S enc Hl Hs) as [[_ D]|[_ D]]; auto.
Qed.
Lemma codec_correctable SS n ds C enc : good_config SS n ds -> rs_construct SS n = Ret C ->
  (N.to_nat (total_symbols SS n ds * symbol_bytes SS) <= length enc)%nat ->
  elems (field_of SS) (elements SS (N.to_nat (total_symbols SS n ds)) enc) ->
  is_correctable SS n ds C enc = Ret true \/ is_correctable SS n ds C enc = UB UB_array_index.
Proof.
  intros Hc EC Hl Hs. destruct (config_construct SS n ds Hc) as (T & E & OK & EC'). rewrite EC' in EC. injection EC as <-.
  destruct (config_cases SS n ds Hc) as (_ & O & S). destruct Hc as (_ & Hds & Hn & _). unfold total_symbols in *.
  replace (N.to_nat (data_symbols SS ds + n)) with (N.to_nat (data_symbols SS ds) + N.to_nat n)%nat in * by lia.
  apply (correctable_spec _ _ T OK SS n ds (surjective_pairing _) Hn O Hds S enc Hl Hs).
Qed.
Lemma gf256_ub : gf_construct GF256 = UB UB_array_index.
Proof. vm_compute. reflexivity. Qed.
Lemma rs8_ub n : rs_construct 8 n = UB UB_array_index.
Proof. unfold rs_construct. change (field_of 8) with GF256. rewrite gf256_ub. reflexivity. Qed.
Lemma correct_errors p T msg n : good_field p -> gf_construct p = Ret T -> elems p msg -> n < 255 -> n < 2 ^ fst p ->
  rs_correct_errors (fst p) T msg n = Ret (Some msg) \/ rs_correct_errors (fst p) T msg n = UB UB_array_index.
Proof.
  intros Hp E Hm Hn Hf. pose proof (good_ok p T Hp E) as OK. destruct p as [m P]. cbn [fst snd] in *. pose proof (order_ord m P T OK).
  destruct (correct_errors_spec m P T OK msg n Hm ltac:(lia) Hn) as [[_ D]|[_ D]]; auto.
Qed.
Lemma syndromes_ok p T msg n fuel : good_field p -> gf_construct p = Ret T -> elems p msg -> n < 255 -> n < 2 ^ fst p -> (N.to_nat n + 2 <= fuel)%nat ->
  exists s, rs_calc_syndromes_fuel (fst p) T fuel msg n = Ret s /\ length s = S (N.to_nat n) /\
  forall i, i <= n -> exists e, pow (fst p) T 2 i = Ret e /\ eval_poly (fst p) T msg e = Ret (nth (N.to_nat i) s 0).
Proof.
  intros Hp E Hm Hn Hf Hfu. pose proof (good_ok p T Hp E) as OK. destruct p as [m P]. cbn [fst snd] in *. pose proof (order_ord m P T OK) as OO.
  exists (synds m P msg (N.to_nat n)). split; [apply (syndromes_fuel m P T OK); auto; lia|]. split; [unfold synds; rewrite map_length, seq_length; reflexivity|].
  intros i Hi. exists (al m P (N.to_nat i)). split.
  - rewrite (pow_spec m P T OK); [|pose proof (two_lt m P T OK); lia|].
    + rewrite <- (al_1 m P T OK), (power_al m P T OK). do 2 f_equal. lia.
    + assert (Z1 : lg T 2 = 1%nat).
      { pose proof (two_lt m P T OK). destruct (lg_al m P T OK 2 ltac:(lia) ltac:(discriminate)) as [B1 B2].
        assert (Hb : (1 < N.to_nat (2 ^ m) - 1)%nat) by (pose proof (ok_order m P T OK); lia). apply (al_inj m P T OK); auto. rewrite B1. symmetry. apply (al_1 m P T OK). }
      rewrite Z1. change (2 ^ 32) with 4294967296. lia.
  - rewrite (eval_spec m P T OK); [|exact Hm|apply (al_lt m P T OK)]. rewrite synds_nth by lia. reflexivity.
Qed.
Lemma syndromes_255 T msg fuel : gf_construct GF1024 = Ret T -> elems GF1024 msg -> rs_calc_syndromes_fuel 10 T fuel msg 255 = OutOfFuel.
Proof.
  intros E Hm. pose proof (gf1024_ok T E) as OK. unfold rs_calc_syndromes_fuel. apply (synd_loop_255 10 0x409 T OK); [exact Hm|cbv; discriminate|lia|].
  rewrite repeat_length. reflexivity.
Qed.
Lemma find_errors p T l len : good_field p -> gf_construct p = Ret T -> elems p l -> l <> [] -> N.of_nat (length l) < 2 ^ 64 -> len <= 2 ^ fst p ->
  exists mul inv ps, (forall a b, elem p a -> elem p b -> multiply (fst p) T a b = Ret (mul a b)) /\
    (forall a, elem p a -> a <> 0 -> inverse (fst p) T a = Ret (inv a)) /\ rs_find_errors (fst p) T l len = Ret ps /\
    let roots := filter (fun pos => value mul l (inv (power mul 2 (len - 1 - pos))) =? 0) (rev (map N.of_nat (seq 0 (N.to_nat len)))) in
    ps = if Nat.eqb (length roots) (length l - 1) then map Z.of_N roots else [].
Proof.
  intros Hp E Hl Ne H64 Hlen. pose proof (good_ok p T Hp E) as OK. destruct p as [m P]. cbn [fst snd] in *. pose proof (order_ord m P T OK) as OO. pose proof (two_lt m P T OK) as T2.
  destruct (find_errors_spec m P T OK l len Hl Ne) as (ps & Ep & Q); [change (2 ^ 64)%Z with (Z.of_N (2 ^ 64)); lia|lia|].
  exists (ms m P), (inv m P T), ps. split; [apply (mul_spec m P T OK)|]. split; [apply (inverse_spec m P T OK)|]. split; [exact Ep|].
  cbv zeta in *. 
  assert (X : filter (root_at m P T l len) (map (fun i : nat => (Z.of_N len - 1 - Z.of_nat i)%Z) (seq 0 (N.to_nat len))) =
     map Z.of_N (filter (fun pos => value (ms m P) l (inv m P T (power (ms m P) 2 (len - 1 - pos))) =? 0) (rev (map N.of_nat (seq 0 (N.to_nat len)))))).
  { assert (R : rev (map N.of_nat (seq 0 (N.to_nat len))) = map (fun i => len - 1 - N.of_nat i) (seq 0 (N.to_nat len))).
    { rewrite <- map_rev. apply (nth_ext _ _ 0 0); [rewrite !map_length, rev_length; reflexivity|]. rewrite map_length, rev_length, seq_length. intros i Hi.
      rewrite (nth_indep _ 0 (N.of_nat 0)) by (rewrite map_length, rev_length, seq_length; exact Hi). rewrite map_nth.
      rewrite rev_nth by (rewrite seq_length; exact Hi). rewrite seq_length, seq_nth by lia.
      rewrite (nth_indep _ 0 ((fun i => len - 1 - N.of_nat i) 0%nat)) by (rewrite map_length, seq_length; exact Hi). rewrite (map_nth (fun i => len - 1 - N.of_nat i)).
      rewrite seq_nth by lia. lia. }
    rewrite R. assert (HH : forall j, In j (seq 0 (N.to_nat len)) -> N.of_nat j < len) by (intros j Hj; apply in_seq in Hj; lia).
    revert HH. generalize (seq 0 (N.to_nat len)) as s. induction s as [|j s IH]; intros HH; [reflexivity|]. cbn [map filter].
    assert (Hj : N.of_nat j < len) by (apply HH; left; reflexivity).
    assert (RR : root_at m P T l len (Z.of_N len - 1 - Z.of_nat j) = (value (ms m P) l (inv m P T (power (ms m P) 2 (len - 1 - (len - 1 - N.of_nat j)))) =? 0)).
    { unfold root_at. do 3 f_equal. rewrite <- (al_1 m P T OK), (power_al m P T OK). f_equal. lia. }
    rewrite RR. destruct (value (ms m P) l (inv m P T (power (ms m P) 2 (len - 1 - (len - 1 - N.of_nat j)))) =? 0).
    - cbn [map]. rewrite IH by (intros; apply HH; right; assumption). f_equal. lia.
    - apply IH. intros; apply HH; right; assumption. }
  rewrite X in Q. rewrite map_length in Q. exact Q.
Qed.

(** syndrome i of a received word is its value at 2^i *)
Lemma pow_two m P T i : gf_ok m P T -> i < 255 -> pow m T 2 i = Ret (al m P (N.to_nat i)).
Proof.
  intros OK Hi. pose proof (al_1 m P T OK) as A1. pose proof (two_lt m P T OK) as T2. rewrite (pow_spec m P T OK); [|lia|].
  - rewrite <- A1. rewrite (power_al m P T OK). do 2 f_equal. lia.
  - assert (Z1 : lg T 2 = 1%nat).
    { destruct (lg_al m P T OK 2 ltac:(lia) ltac:(discriminate)) as [B1 B2].
      assert (Hb : (1 < N.to_nat (2 ^ m) - 1)%nat) by (pose proof (ok_order m P T OK); lia). apply (al_inj m P T OK); auto. congruence. }
    rewrite Z1. change (2 ^ 32) with 4294967296. lia.
Qed.
Lemma codec_decode_iff SS n ds C enc : good_config SS n ds -> rs_construct SS n = Ret C ->
  (N.to_nat (total_symbols SS n ds * symbol_bytes SS) <= length enc)%nat ->
  elems (field_of SS) (elements SS (N.to_nat (total_symbols SS n ds)) enc) ->
  let word := elements SS (N.to_nat (total_symbols SS n ds)) enc in
  ((forall i, 1 <= i <= n -> exists e, pow (fst (field_of SS)) (ctab C) 2 i = Ret e /\ eval_poly (fst (field_of SS)) (ctab C) word e = Ret 0) ->
   decode SS n ds C enc = Ret (Some (to_data SS ds (firstn (N.to_nat (data_symbols SS ds)) word)))) /\
  (forall i e v, 1 <= i <= n -> pow (fst (field_of SS)) (ctab C) 2 i = Ret e -> eval_poly (fst (field_of SS)) (ctab C) word e = Ret v -> v <> 0 ->
   decode SS n ds C enc = UB UB_array_index).
Proof.
  cbv zeta. intros Hc EC Hl Hs. destruct (config_construct SS n ds Hc) as (T & E & OK & EC'). rewrite EC' in EC. injection EC as <-.
  destruct (config_cases SS n ds Hc) as (_ & O & S). destruct Hc as (_ & Hds & Hn & _). unfold total_symbols in *.
  replace (N.to_nat (data_symbols SS ds + n)) with (N.to_nat (data_symbols SS ds) + N.to_nat n)%nat in * by lia. cbn [ctab].
  pose proof (decode_spec _ _ T OK SS n ds (surjective_pairing _) Hn O Hds S enc Hl Hs) as D. split.
  - intros H. destruct D as [[_ D]|[Q D]]; [exact D|]. exfalso. apply Q. intros i Hi. destruct (H (N.of_nat i)) as (e & E1 & E2); [lia|].
    rewrite (pow_two _ _ T _ OK) in E1 by lia. injection E1 as <-. rewrite Nat2N.id in E2.
    rewrite (eval_spec _ _ T OK) in E2; [injection E2; auto|exact Hs|apply (al_lt _ _ T OK)].
  - intros i e v Hi E1 E2 Nv. destruct D as [[Q D]|[_ D]]; [|exact D]. exfalso. apply Nv.
    rewrite (pow_two _ _ T _ OK) in E1 by lia. injection E1 as <-.
    rewrite (eval_spec _ _ T OK) in E2; [|exact Hs|apply (al_lt _ _ T OK)]. injection E2 as <-. apply Q. lia.
Qed.
Lemma short_input SS n ds C enc : N.of_nat (length enc) < total_symbols SS n ds * symbol_bytes SS ->
  is_correctable SS n ds C enc = Ret false /\ decode SS n ds C enc = Ret None.
Proof.
  intros H. unfold is_correctable, decode. set (k := total_symbols SS n ds * symbol_bytes SS) in *.
  replace (Z.of_nat (length enc) <? Z.of_N k)%Z with true by (symmetry; apply Z.ltb_lt; lia). auto.
Qed.
