From Coq Require Import List NArith ZArith Bool Lia.
Import ListNotations.
From Verif Require Import Outcome Words Arith Floats Approx_Model Approx_Spec Approx_Proofs Bits_Model Bits_Spec Bits_Proofs.
Local Open Scope Z_scope.

Lemma cast_bits t x j : In t int_types -> 0 <= j < iw t -> Z.testbit (icast t x) j = Z.testbit x j.
Proof.
  intros Ht Hj. destruct (cast_mod t x Ht) as (k & ->).
  rewrite <- (Z.mod_pow2_bits_low (x + k * 2 ^ iw t) (iw t)) by lia.
  rewrite Z.mod_add by (apply Z.pow_nonzero; lia). apply Z.mod_pow2_bits_low. lia.
Qed.
Lemma range_inj t u v : in_range t u -> in_range t v -> (forall j, 0 <= j < iw t -> Z.testbit u j = Z.testbit v j) -> u = v.
Proof.
  intros Hu Hv H. pose proof (proj1 Hu) as Ht.
  assert (E : u mod 2 ^ iw t = v mod 2 ^ iw t).
  { apply Z.bits_inj'. intros j Hj. destruct (Z.ltb_spec j (iw t)).
    - rewrite !Z.mod_pow2_bits_low by lia. apply H. lia.
    - rewrite !Z.mod_pow2_bits_high by (types Ht; cbn in *; lia). reflexivity. }
  assert (P : 0 < 2 ^ iw t) by (types Ht; reflexivity).
  assert (exists k, u = v + k * 2 ^ iw t) as (k & K).
  { exists (u / 2 ^ iw t - v / 2 ^ iw t). pose proof (Z.div_mod u (2 ^ iw t)). pose proof (Z.div_mod v (2 ^ iw t)). lia. }
  assert (k = 0); [|lia]. destruct Hu as [_ Hu], Hv as [_ Hv]. types Ht; cbn in *; lia.
Qed.
Lemma prom_width t : In t int_types -> iw t <= iw (promote t) /\ In (promote t) int_types.
Proof. intros Ht. types Ht; cbn; (split; [lia|auto 10]). Qed.
Theorem flip_bits t v pos : in_range t v -> 0 <= pos < iw t ->
  in_range t (bm_flip (Int t) v pos) /\
  forall j, 0 <= j < iw t -> Z.testbit (bm_flip (Int t) v pos) j = xorb (Z.testbit v j) (j =? pos).
Proof.
  intros [Ht Hv] Hp. unfold bm_flip. cbn [bwidth bcast]. unfold one_shl. cbn [bprom].
  replace (pos <? 0) with false by (symmetry; apply Z.ltb_ge; lia). replace (iw t <=? pos) with false by (symmetry; apply Z.leb_gt; lia).
  cbn [orb]. split; [apply cast_range; exact Ht|]. intros j Hj. destruct (prom_width t Ht) as [W Hpt].
  rewrite cast_bits by assumption. rewrite Z.lxor_spec, cast_bits by (try assumption; lia).
  rewrite Z.pow2_bits_eqb by lia. rewrite (Z.eqb_sym pos j). reflexivity.
Qed.
Theorem flip_out t v pos : pos < 0 \/ bwidth t <= pos -> bm_flip t v pos = v.
Proof.
  intros H. unfold bm_flip. destruct (Z.ltb_spec pos 0); [reflexivity|]. destruct (Z.leb_spec (bwidth t) pos); [reflexivity|lia].
Qed.
Theorem flip_involutive t v pos : in_range t v -> bm_flip (Int t) (bm_flip (Int t) v pos) pos = v.
Proof.
  intros Hv. destruct (Z.ltb_spec pos 0); [rewrite !flip_out by (cbn; lia); reflexivity|].
  destruct (Z.leb_spec (iw t) pos); [rewrite !flip_out by (cbn; lia); reflexivity|].
  destruct (flip_bits t v pos Hv ltac:(lia)) as [R1 B1]. destruct (flip_bits t _ pos R1 ltac:(lia)) as [R2 B2].
  apply (range_inj t); [exact R2|exact Hv|]. intros j Hj. rewrite B2, B1 by exact Hj. rewrite xorb_assoc, xorb_nilpotent, xorb_false_r. reflexivity.
Qed.
Lemma top_bit t v : in_range t v -> isg t = true -> Z.testbit v (iw t - 1) = (v <? 0).
Proof.
  intros [Ht H] S. rewrite S in H. assert (W : 0 <= iw t - 1) by (types Ht; cbn; lia).
  destruct (Z.ltb_spec v 0).
  - rewrite Z.testbit_true by exact W. replace (v / 2 ^ (iw t - 1)) with (-1) by (apply Z.div_unique with (v + 2 ^ (iw t - 1)); lia). reflexivity.
  - rewrite Z.testbit_false by exact W. rewrite Z.div_small by lia. reflexivity.
Qed.
Lemma land_pow v pos : 0 <= pos -> negb (Z.land v (2 ^ pos) =? 0) = Z.testbit v pos.
Proof.
  intros Hp. destruct (Z.testbit v pos) eqn:E.
  - apply negb_true_iff. apply Z.eqb_neq. intros K.
    assert (Z.testbit (Z.land v (2 ^ pos)) pos = false) by (rewrite K; apply Z.testbit_0_l).
    rewrite Z.land_spec, E, Z.pow2_bits_true in H by exact Hp. discriminate.
  - apply negb_false_iff. apply Z.eqb_eq. apply Z.bits_inj'. intros j Hj. rewrite Z.land_spec, Z.testbit_0_l, Z.pow2_bits_eqb by exact Hp.
    destruct (Z.eqb_spec pos j) as [<-|]; [rewrite E; reflexivity|apply andb_false_r].
Qed.
Theorem isset_spec t v pos : in_range t v ->
  bm_isset (Int t) v pos = if (0 <=? pos) && (pos <? iw t) then Z.testbit v pos else false.
Proof.
  intros Hv. pose proof (proj1 Hv) as Ht. unfold bm_isset. cbn [bwidth].
  destruct (Z.ltb_spec pos 0).
  { replace (0 <=? pos) with false by (symmetry; apply Z.leb_gt; lia). reflexivity. }
  replace (0 <=? pos) with true by (symmetry; apply Z.leb_le; lia). cbn [orb andb].
  destruct (Z.leb_spec (iw t) pos).
  { replace (pos <? iw t) with false by (symmetry; apply Z.ltb_ge; lia). reflexivity. }
  replace (pos <? iw t) with true by (symmetry; apply Z.ltb_lt; lia).
  unfold one_shl. cbn [bprom]. destruct (prom_width t Ht) as [W Hpt].
  destruct (isg (promote t) && (pos =? iw (promote t) - 1)) eqn:E.
  - apply andb_true_iff in E. destruct E as [E1 E2]. apply Z.eqb_eq in E2.
    assert (promote t = t) as Ep by (types Ht; cbn in *; try reflexivity; lia). rewrite Ep in *. subst pos.
    replace (icast t (2 ^ (iw t - 1))) with (- 2 ^ (iw t - 1)) by (types Ht; cbn in E1; try discriminate; reflexivity).
    rewrite top_bit by assumption. destruct Hv as [_ Hv]. rewrite E1 in Hv.
    replace (- 2 ^ (iw t - 1)) with (Z.lnot (2 ^ (iw t - 1) - 1)) by (unfold Z.lnot; lia). rewrite Z.land_comm.
    destruct (Z.ltb_spec v 0).
    + apply negb_true_iff. apply Z.eqb_neq. intros K.
      assert (Z.land (Z.lnot (2 ^ (iw t - 1) - 1)) v < 0) as L; [|lia].
      apply Z.land_neg. split; [|assumption]. unfold Z.lnot. assert (0 < 2 ^ (iw t - 1)) by (apply Z.pow_pos_nonneg; lia). lia.
    + rewrite land_low by lia. reflexivity.
  - replace (icast (promote t) (2 ^ pos)) with (2 ^ pos); [apply land_pow; lia|]. symmetry. apply icast_id. split; [exact Hpt|].
    assert (0 < 2 ^ pos) by (apply Z.pow_pos_nonneg; lia). destruct (isg (promote t)).
    + cbn [andb] in E. apply Z.eqb_neq in E. assert (2 ^ pos < 2 ^ (iw (promote t) - 1)) by (apply Z.pow_lt_mono_r; lia). lia.
    + assert (2 ^ pos < 2 ^ iw (promote t)) by (apply Z.pow_lt_mono_r; lia). lia.
Qed.

(** *** bool *)
Theorem flip_bool v pos : 1 <= pos < 8 -> value_of Bool v -> bm_flip Bool v pos = 1.
Proof.
  intros Hp Hv. unfold bm_flip. cbn [bwidth bcast]. unfold one_shl. cbn [bprom].
  assert (pos = 1 \/ pos = 2 \/ pos = 3 \/ pos = 4 \/ pos = 5 \/ pos = 6 \/ pos = 7) as H by lia.
  cbn [value_of] in Hv. destruct Hv as [->| ->]; repeat (destruct H as [->|H]; [reflexivity|]); subst; reflexivity.
Qed.

(** *** float patterns *)
Local Open Scope N_scope.
Theorem fflip_bits w x pos : x < 2 ^ w -> (0 <= pos < Z.of_N w)%Z ->
  bm_flip_float w x pos < 2 ^ w /\
  forall j, N.testbit (bm_flip_float w x pos) j = xorb (N.testbit x j) (j =? Z.to_N pos).
Proof.
  intros Hx Hp. unfold bm_flip_float. replace (pos <? 0)%Z with false by (symmetry; apply Z.ltb_ge; lia).
  replace (Z.of_N w <=? pos)%Z with false by (symmetry; apply Z.leb_gt; lia). cbn [orb].
  assert (Hb : forall j, N.testbit (N.lxor x (2 ^ Z.to_N pos)) j = xorb (N.testbit x j) (j =? Z.to_N pos)).
  { intros j. rewrite N.lxor_spec, N.pow2_bits_eqb, (N.eqb_sym (Z.to_N pos)). reflexivity. }
  split; [|exact Hb].
  assert (E : N.lxor x (2 ^ Z.to_N pos) mod 2 ^ w = N.lxor x (2 ^ Z.to_N pos)).
  { apply N.bits_inj. intros j. destruct (N.ltb_spec j w).
    - apply N.mod_pow2_bits_low. assumption.
    - rewrite N.mod_pow2_bits_high by assumption. rewrite Hb. 
      rewrite <- (N.mod_small x (2 ^ w) Hx), N.mod_pow2_bits_high by assumption.
      destruct (N.eqb_spec j (Z.to_N pos)); [lia|reflexivity]. }
  rewrite <- E. apply N.mod_lt. apply N.pow_nonzero. discriminate.
Qed.
Theorem fflip_involutive w x pos : bm_flip_float w (bm_flip_float w x pos) pos = x.
Proof.
  unfold bm_flip_float. destruct ((pos <? 0)%Z || (Z.of_N w <=? pos)%Z); [reflexivity|].
  rewrite N.lxor_assoc, N.lxor_nilpotent. apply N.lxor_0_r.
Qed.

(** *** Hamming distance *)
Lemma count_loop_spec k : forall fuel d c, d < 2 ^ N.of_nat k -> (k < fuel)%nat ->
  count_loop fuel d c = c + N.of_nat (length (filter (fun i => N.testbit d (N.of_nat i)) (seq 0 k))).
Proof.
  induction k as [|k IH]; intros [|fuel] d c Hd Hf; try lia.
  - cbn [count_loop]. change (2 ^ N.of_nat 0) with 1 in Hd. replace d with 0 by lia. cbn. lia.
  - cbn [count_loop]. destruct (N.eqb_spec d 0) as [->|Hn].
    + replace (filter _ _) with (@nil nat); [cbn; lia|]. symmetry.
      induction (seq 0 (S k)); [reflexivity|]. cbn [filter]. rewrite N.bits_0. exact IHl.
    + rewrite IH; [|rewrite N.shiftr_div_pow2; change (2 ^ 1) with 2; apply N.div_lt_upper_bound; [lia|]; rewrite <- N.pow_succ_r'; rewrite <- Nnat.Nat2N.inj_succ; exact Hd|lia].
      cbn [seq filter]. change (N.of_nat 0) with 0. rewrite <- seq_shift.
      assert (L : length (filter (fun i => N.testbit d (N.of_nat i)) (map S (seq 0 k))) =
                  length (filter (fun i => N.testbit (N.shiftr d 1) (N.of_nat i)) (seq 0 k))).
      { clear. induction (seq 0 k) as [|i l IH]; [reflexivity|]. cbn [map filter].
        rewrite N.shiftr_spec by lia. replace (N.of_nat i + 1) with (N.of_nat (S i)) by lia.
        destruct (N.testbit d (N.of_nat (S i))); cbn [length]; congruence. }
      replace (N.land d 1) with (b2n (N.testbit d 0)).
      2:{ change 1 with (N.ones 1). rewrite N.land_ones. change (2 ^ 1) with 2. rewrite <- N.bit0_mod. destruct (N.testbit d 0); reflexivity. }
      destruct (N.testbit d 0); cbn [length b2n]; rewrite L; lia.
Qed.
Theorem count_spec size a b : bm_count size a b = hamming (N.to_nat (uint_bits size)) a b.
Proof.
  unfold bm_count, hamming. set (w := uint_bits size). rewrite (count_loop_spec (N.to_nat w)); [|rewrite Nnat.N2Nat.id|lia].
  - rewrite N.add_0_l. f_equal. f_equal. apply filter_ext_in. intros i Hi. apply in_seq in Hi.
    rewrite N.lxor_spec, !N.mod_pow2_bits_low by lia. reflexivity.
  - set (d := N.lxor _ _). assert (E : d mod 2 ^ w = d).
    { apply N.bits_inj. intros j. destruct (N.ltb_spec j w); [apply N.mod_pow2_bits_low; assumption|].
      rewrite N.mod_pow2_bits_high by assumption. unfold d. rewrite N.lxor_spec, !N.mod_pow2_bits_high by assumption. reflexivity. }
    rewrite <- E. apply N.mod_lt. apply N.pow_nonzero. discriminate.
Qed.
Theorem hamming_sym w a b : hamming w a b = hamming w b a.
Proof. unfold hamming. do 2 f_equal. apply filter_ext. intros i. apply xorb_comm. Qed.
Theorem hamming_zero w a b : a < 2 ^ N.of_nat w -> b < 2 ^ N.of_nat w -> (hamming w a b = 0 <-> a = b).
Proof.
  intros Ha Hb. split.
  - intros H. apply N.bits_inj. intros j. destruct (N.ltb_spec j (N.of_nat w)).
    + unfold hamming in H. assert (E : filter (fun i => xorb (N.testbit a (N.of_nat i)) (N.testbit b (N.of_nat i))) (seq 0 w) = []).
      { destruct (filter _ _); [reflexivity|cbn in H; lia]. }
      destruct (xorb (N.testbit a j) (N.testbit b j)) eqn:X; [|apply xorb_eq; exact X].
      assert (In (N.to_nat j) []) as K; [|destruct K]. rewrite <- E. apply filter_In. split; [apply in_seq; lia|].
      rewrite Nnat.N2Nat.id. exact X.
    + rewrite <- (N.mod_small a _ Ha), <- (N.mod_small b _ Hb), !N.mod_pow2_bits_high by assumption. reflexivity.
  - intros ->. unfold hamming. replace (filter _ _) with (@nil nat); [reflexivity|]. symmetry.
    induction (seq 0 w); [reflexivity|]. cbn [filter]. rewrite xorb_nilpotent. exact IHl.
Qed.
Theorem hamming_triangle w a b c : hamming w a c <= hamming w a b + hamming w b c.
Proof.
  unfold hamming. rewrite <- Nnat.Nat2N.inj_add.
  enough (length (filter (fun i => xorb (N.testbit a (N.of_nat i)) (N.testbit c (N.of_nat i))) (seq 0 w)) <=
    length (filter (fun i => xorb (N.testbit a (N.of_nat i)) (N.testbit b (N.of_nat i))) (seq 0 w)) +
    length (filter (fun i => xorb (N.testbit b (N.of_nat i)) (N.testbit c (N.of_nat i))) (seq 0 w)))%nat by lia.
  induction (seq 0 w) as [|i l IH]; [cbn; lia|]. cbn [filter].
  destruct (N.testbit a (N.of_nat i)), (N.testbit b (N.of_nat i)), (N.testbit c (N.of_nat i)); cbn [xorb length]; lia.
Qed.
Lemma filter_one p s n : length (filter (fun i => Nat.eqb i p) (seq s n)) = if Nat.leb s p && Nat.ltb p (s + n) then 1%nat else 0%nat.
Proof.
  revert s. induction n as [|n IH]; intros s; cbn [seq filter].
  - destruct (Nat.leb_spec s p), (Nat.ltb_spec p (s + 0)); cbn; lia.
  - destruct (Nat.eqb_spec s p) as [E|E]; cbn [length]; rewrite IH.
    + subst s. destruct (Nat.leb_spec (S p) p), (Nat.leb_spec p p), (Nat.ltb_spec p (p + S n)); cbn; lia.
    + destruct (Nat.leb_spec (S s) p), (Nat.ltb_spec p (S s + n)), (Nat.leb_spec s p), (Nat.ltb_spec p (s + S n)); cbn; lia.
Qed.
Theorem hamming_flip w x pos : (0 <= pos < Z.of_nat w)%Z -> x < 2 ^ N.of_nat w -> hamming w x (bm_flip_float (N.of_nat w) x pos) = 1.
Proof.
  intros Hp Hx. destruct (fflip_bits (N.of_nat w) x pos Hx ltac:(lia)) as [_ B]. unfold hamming.
  rewrite (filter_ext _ (fun i => Nat.eqb i (Z.to_nat pos))).
  - rewrite filter_one. destruct (Nat.leb_spec 0 (Z.to_nat pos)), (Nat.ltb_spec (Z.to_nat pos) (0 + w)); cbn; lia.
  - intros i. rewrite B, <- xorb_assoc, xorb_nilpotent, xorb_false_l.
    destruct (N.eqb_spec (N.of_nat i) (Z.to_N pos)), (Nat.eqb_spec i (Z.to_nat pos)); try reflexivity; lia.
Qed.
Lemma bits_of_spec w v j : (0 <= w)%Z -> (Z.of_N j < w)%Z -> N.testbit (bits_of w v) j = Z.testbit v (Z.of_N j).
Proof.
  intros Hw Hj. unfold bits_of. assert (0 <= v mod 2 ^ w)%Z by (apply Z.mod_pos_bound; apply Z.pow_pos_nonneg; lia).
  rewrite <- (Z.mod_pow2_bits_low v w (Z.of_N j)) by lia.
  rewrite <- (Z2N.id (v mod 2 ^ w)) at 2 by assumption.
  rewrite Z.testbit_of_N. reflexivity.
Qed.
Theorem count_flip_int t v pos : in_range t v -> (0 <= pos < iw t)%Z ->
  bm_count (Z.to_N (iw t / 8)) (bits_of (iw t) v) (bits_of (iw t) (bm_flip (Int t) v pos)) = 1.
Proof.
  intros Hv Hp. destruct (flip_bits t v pos Hv Hp) as [_ B]. rewrite count_spec.
  assert (W : uint_bits (Z.to_N (iw t / 8)) = Z.to_N (iw t)) by (destruct Hv as [Ht _]; types Ht; reflexivity).
  rewrite W. unfold hamming. rewrite (filter_ext_in _ (fun i => Nat.eqb i (Z.to_nat pos))).
  - rewrite filter_one. destruct (Nat.leb_spec 0 (Z.to_nat pos)), (Nat.ltb_spec (Z.to_nat pos) (0 + N.to_nat (Z.to_N (iw t)))); cbn; lia.
  - intros i Hi. apply in_seq in Hi. rewrite !bits_of_spec by lia. rewrite B by lia. rewrite <- xorb_assoc, xorb_nilpotent, xorb_false_l.
    destruct (Z.eqb_spec (Z.of_N (N.of_nat i)) pos), (Nat.eqb_spec i (Z.to_nat pos)); try reflexivity; lia.
Qed.

(** *** Result *)
Lemma dom_eqb_iff a b : dom_eqb a b = true <-> a = b.
Proof. destruct a, b; cbn; split; intros H; congruence. Qed.
Theorem st_eq_iff a b : st_eq a b = true <-> dom a = dom b /\ code a = code b.
Proof. unfold st_eq. rewrite andb_true_iff, dom_eqb_iff, N.eqb_eq. reflexivity. Qed.
Theorem st_success_iff s : st_isSuccess s = true <-> st_eq s SUCCESS = true.
Proof. reflexivity. Qed.
Theorem res_get_iff {V} (r : result V) out : (exists v, r = res_of_value v) \/ (exists s, r = res_of_status s) ->
  exists o, res_getValue r out = Ret (res_isSuccess r, o) /\ (res_isSuccess r = false -> o = out) /\
  (forall v, r = res_of_value v -> o = v).
Proof.
  intros [[v ->]|[s ->]].
  - exists v. split; [reflexivity|]. split; [discriminate|]. intros u H. injection H as ->. reflexivity.
  - exists out. split; [reflexivity|]. split; [reflexivity|]. intros u H. discriminate.
Qed.
Theorem res_agrees {V} (r : result V) : (exists v, r = res_of_value v) \/ (exists s, r = res_of_status s /\ st_isSuccess s = false) ->
  res_isSuccess r = st_isSuccess (res_getStatus r).
Proof. intros [[v ->]|(s & -> & H)]; cbn; [reflexivity|]. symmetry. exact H. Qed.
Theorem res_success_status {V} : let r : result V := res_of_status SUCCESS in
  res_isSuccess r = false /\ st_isSuccess (res_getStatus r) = true.
Proof. split; reflexivity. Qed.
Theorem vres_agrees r : r = vres_ok \/ (exists s, r = vres_of_status s) -> vsuccess r = st_isSuccess (vstatus r).
Proof. intros [->|[s ->]]; reflexivity. Qed.
Theorem predefined_are_errors : Forall (fun s => st_isSuccess s = false) predefined_errors.
Proof. repeat constructor. Qed.
Theorem res_copy_error {V} s : res_copy (@res_of_status V s) = UB UB_uninit.
Proof. reflexivity. Qed.
