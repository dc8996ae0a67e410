From Coq Require Import List NArith ZArith Bool Lia.
Import ListNotations.
From Verif Require Import Outcome Words Arith Floats Approx_Model Approx_Spec Approx_Proofs Bits_Model Bits_Spec.
Local Open Scope Z_scope.

Ltac types H := cbn in H; repeat (destruct H as [<-|H]; [|]); [..|destruct H].
Lemma fits_iff t x : In t int_types -> (fitsb t x = true <-> in_range t x).
Proof.
  intros Ht. unfold fitsb, in_range. rewrite andb_true_iff, !Z.leb_le. split.
  - intros H. split; [exact Ht|]. types Ht; cbn in *; lia.
  - intros [_ H]. types Ht; cbn in *; lia.
Qed.
Lemma cast_mod t x : In t int_types -> exists k, icast t x = x + k * 2 ^ iw t.
Proof.
  intros Ht. unfold icast. destruct (isg t).
  - exists (- ((x + 2 ^ (iw t - 1)) / 2 ^ iw t)).
    assert (0 < 2 ^ iw t) by (types Ht; reflexivity).
    pose proof (Z.div_mod (x + 2 ^ (iw t - 1)) (2 ^ iw t)). lia.
  - exists (- (x / 2 ^ iw t)). assert (0 < 2 ^ iw t) by (types Ht; reflexivity).
    pose proof (Z.div_mod x (2 ^ iw t)). lia.
Qed.
Lemma cast_range t x : In t int_types -> in_range t (icast t x).
Proof.
  intros Ht. split; [exact Ht|]. unfold icast.
  assert (0 < 2 ^ iw t) by (types Ht; reflexivity).
  destruct (isg t) eqn:E.
  - pose proof (Z.mod_pos_bound (x + 2 ^ (iw t - 1)) (2 ^ iw t) H).
    assert (2 ^ iw t = 2 * 2 ^ (iw t - 1)) by (types Ht; reflexivity). lia.
  - apply Z.mod_pos_bound. exact H.
Qed.

(** *** FixedPoint *)
Definition strict (t : ity) : bool := isg t && (32 <=? iw t).
Lemma add_like t x : In t int_types -> (iw t < 32 -> Z.abs x <= 2 ^ 31 - 1) ->
  obind (arith (promote t) x) (fun s => Ret (icast t s)) =
  if fitsb t x then Ret x else if strict t then UB UB_signed_overflow else Ret (icast t x).
Proof.
  intros Ht Hx. destruct (fitsb t x) eqn:E.
  - apply fits_iff in E; [|exact Ht]. unfold arith, promote.
    destruct (iw t <? 32) eqn:W.
    + change (isg int32) with true; cbv iota. apply Z.ltb_lt in W. specialize (Hx W).
      replace (fitsb int32 x) with true by (symmetry; apply fits_iff; [cbn; auto 10|split; [cbn; auto 10|cbn; lia]]).
      cbn [obind]. rewrite icast_id by exact E. reflexivity.
    + destruct (isg t) eqn:S.
      * replace (fitsb t x) with true by (symmetry; apply fits_iff; assumption). cbn [obind]. rewrite icast_id by exact E. reflexivity.
      * cbn [obind]. rewrite (icast_id t x E), (icast_id t x E). reflexivity.
  - unfold arith, promote, strict. destruct (iw t <? 32) eqn:W.
    + change (isg int32) with true; cbv iota. apply Z.ltb_lt in W. specialize (Hx W).
      replace (fitsb int32 x) with true by (symmetry; apply fits_iff; [cbn; auto 10|split; [cbn; auto 10|cbn; lia]]).
      cbn [obind]. replace (32 <=? iw t) with false by (symmetry; apply Z.leb_gt; lia). rewrite andb_false_r. reflexivity.
    + apply Z.ltb_ge in W. replace (32 <=? iw t) with true by (symmetry; apply Z.leb_le; lia). rewrite andb_true_r.
      destruct (isg t) eqn:S; [rewrite E; reflexivity|]. cbn [obind].
      rewrite (icast_id t (icast t x)) by (apply cast_range; exact Ht). reflexivity.
Qed.
Lemma fp_add_spec t a b : in_range t a -> in_range t b ->
  fp_add t a b = if fitsb t (a + b) then Ret (a + b) else if strict t then UB UB_signed_overflow else Ret (icast t (a + b)).
Proof.
  intros [Ht Ha] [_ Hb]. apply add_like; [exact Ht|]. intros W. types Ht; cbn in *; lia.
Qed.
Lemma fp_sub_spec t a b : in_range t a -> in_range t b ->
  fp_sub t a b = if fitsb t (a - b) then Ret (a - b) else if strict t then UB UB_signed_overflow else Ret (icast t (a - b)).
Proof.
  intros [Ht Ha] [_ Hb]. apply add_like; [exact Ht|]. intros W. types Ht; cbn in *; lia.
Qed.
Lemma i64_range x : - 2 ^ 63 <= x < 2 ^ 63 -> in_range int64 x.
Proof. intros H. split; [cbn; auto 10|]. cbn. lia. Qed.
Lemma common64 t : In t int_types -> iw t <= 32 -> common int64 (promote t) = int64.
Proof. intros Ht H. types Ht; cbn in *; try reflexivity; lia. Qed.
Lemma narrow t a : in_range t a -> iw t <= 32 -> - 2 ^ 31 <= a < 2 ^ 32.
Proof. intros [Ht H] W. types Ht; cbn in *; lia. Qed.
Lemma fits64 x : - 2 ^ 63 <= x < 2 ^ 63 -> fitsb int64 x = true.
Proof. intros H. apply fits_iff; [cbn; auto 10|]. apply i64_range. exact H. Qed.
Lemma abs_mul a b x y : Z.abs a <= x -> Z.abs b <= y -> Z.abs (a * b) <= x * y.
Proof. intros Ha Hb. rewrite Z.abs_mul. apply Z.mul_le_mono_nonneg; lia. Qed.
Lemma mul_bound t a b : in_range t a -> in_range t b -> iw t <= 32 -> - 2 ^ 63 <= a * b < 2 ^ 63 \/ isg t = false /\ iw t = 32.
Proof.
  intros [Ht Ha] [_ Hb] W.
  types Ht; cbn in *; try (right; split; reflexivity); left;
    [pose proof (abs_mul a b (2^7) (2^7))|pose proof (abs_mul a b (2^8) (2^8))|pose proof (abs_mul a b (2^15) (2^15))
    |pose proof (abs_mul a b (2^16) (2^16))|pose proof (abs_mul a b (2^31) (2^31))|lia|lia]; cbn in *; lia.
Qed.
Lemma fp_mul_spec t F a b : in_range t a -> in_range t b -> iw t < 32 \/ t = int32 ->
  fp_mul t F a b = Ret (icast t (Z.shiftr (a * b) F)).
Proof.
  intros Ha Hb W. assert (W' : iw t <= 32) by (destruct W as [W| ->]; [lia|cbn; lia]).
  destruct (mul_bound t a b Ha Hb W') as [M|[S I]].
  2:{ destruct W as [W| ->]; [lia|discriminate]. }
  pose proof (narrow _ _ Ha W'). pose proof (narrow _ _ Hb W').
  unfold fp_mul. rewrite common64 by (try apply Ha; exact W').
  rewrite (icast_id int64 a) by (apply i64_range; lia). rewrite (icast_id int64 a) by (apply i64_range; lia).
  rewrite (icast_id int64 b) by (apply i64_range; lia).
  unfold arith. change (isg int64) with true; cbv iota. rewrite fits64 by exact M. cbn [obind].
  rewrite (icast_id int64 (a * b)) by (apply i64_range; exact M). reflexivity.
Qed.
Lemma fp_mul_floor t F a b : 0 <= F -> in_range t a -> in_range t b -> iw t < 32 \/ t = int32 ->
  in_range t (a * b / 2 ^ F) -> fp_mul t F a b = Ret (a * b / 2 ^ F).
Proof.
  intros HF Ha Hb W R. rewrite fp_mul_spec by assumption. rewrite Z.shiftr_div_pow2 by exact HF. rewrite icast_id by exact R. reflexivity.
Qed.
Lemma div_bound t F a : in_range t a -> iw t <= 32 -> 0 <= F < iw t -> - 2 ^ 63 < a * 2 ^ F < 2 ^ 63.
Proof.
  intros [Ht Ha] W HF.
  assert (P : 0 < 2 ^ F <= 2 ^ (iw t - 1)) by (split; [apply Z.pow_pos_nonneg; lia|apply Z.pow_le_mono_r; lia]).
  assert (A : Z.abs a <= 2 ^ iw t) by (types Ht; cbn in *; lia).
  pose proof (abs_mul a (2 ^ F) _ (2 ^ (iw t - 1)) A ltac:(lia)) as M.
  assert (2 ^ iw t * 2 ^ (iw t - 1) <= 2 ^ 32 * 2 ^ 31).
  { apply Z.mul_le_mono_nonneg; try (apply Z.pow_nonneg; lia); apply Z.pow_le_mono_r; lia. }
  destruct (Z.eq_dec (iw t) 32) as [E|E].
  - assert (P2 : 0 < 2 ^ F <= 2147483648) by (rewrite E in P; exact P).
    assert (A2 : - 2147483648 <= a < 4294967296) by (types Ht; cbn [iw] in E; try discriminate; cbn in Ha; lia).
    set (p := 2 ^ F) in *. clearbody p. change (2 ^ 63) with 9223372036854775808. clear - P2 A2. nia.
  - assert (Z.abs (a * 2 ^ F) < 2 ^ 63); [|lia].
    assert (iw t <= 16) by (types Ht; cbn in *; lia).
    assert (2 ^ iw t * 2 ^ (iw t - 1) <= 2 ^ 16 * 2 ^ 15).
    { apply Z.mul_le_mono_nonneg; try (apply Z.pow_nonneg; lia); apply Z.pow_le_mono_r; lia. }
    change (2 ^ 16 * 2 ^ 15) with 2147483648 in *. change (2 ^ 63) with 9223372036854775808. lia.
Qed.
Lemma quot_bound x b : b <> 0 -> - 2 ^ 63 < x < 2 ^ 63 -> - 2 ^ 63 < Z.quot x b < 2 ^ 63.
Proof.
  intros Hb Hx. assert (Z.abs (Z.quot x b) <= Z.abs x).
  { rewrite <- Z.quot_abs by exact Hb. rewrite Z.quot_div_nonneg by lia. apply Z.div_le_upper_bound; [lia|]. rewrite <- (Z.mul_1_l (Z.abs x)) at 1. apply Z.mul_le_mono_nonneg_r; lia. }
  lia.
Qed.
Lemma fp_div_spec t F cpp17 a b : in_range t a -> in_range t b -> iw t <= 32 -> 0 <= F < iw t ->
  fp_div t F cpp17 a b =
  if cpp17 && (a <? 0) then UB UB_shift_negative
  else if b =? 0 then UB UB_div_zero
  else Ret (icast t (Z.quot (a * 2 ^ F) b)).
Proof.
  intros Ha Hb W HF. pose proof (narrow _ _ Ha W). pose proof (narrow _ _ Hb W). pose proof (div_bound _ F _ Ha W HF) as D.
  unfold fp_div. rewrite common64 by (try apply Ha; exact W).
  rewrite (icast_id int64 a) by (apply i64_range; lia). rewrite (icast_id int64 b) by (apply i64_range; lia).
  destruct (cpp17 && (a <? 0)); [reflexivity|].
  replace (2 ^ 64 <=? a * 2 ^ F) with false by (symmetry; apply Z.leb_gt; lia). rewrite andb_false_r.
  destruct (b =? 0) eqn:E; [reflexivity|]. apply Z.eqb_neq in E.
  rewrite !(icast_id int64 (a * 2 ^ F)) by (apply i64_range; lia).
  pose proof (quot_bound _ b E D). unfold arith. change (isg int64) with true; cbv iota. rewrite fits64 by lia. reflexivity.
Qed.
Lemma fp_of_int_spec t F v : In t int_types -> 0 <= F < iw t - 1 -> in_range int32 v -> in_range t (v * 2 ^ F) ->
  isg t = true -> fp_of_int t F v = if fitsb (if iw t <=? 32 then int32 else t) (v * 2 ^ F) then Ret (v * 2 ^ F) else UB UB_signed_overflow.
Proof.
  intros Ht HF Hv Hr S.
  assert (P : 0 < 2 ^ F <= 2 ^ (iw t - 2)) by (split; [apply Z.pow_pos_nonneg; lia|apply Z.pow_le_mono_r; lia]).
  assert (Sc : scale t F = 2 ^ F).
  { unfold scale. apply icast_id. split; [exact Ht|]. types Ht; cbn in *; try discriminate; lia. }
  unfold fp_of_int. rewrite Sc.
  set (c := common int32 (promote t)).
  assert (Hc : c = if iw t <=? 32 then int32 else t) by (unfold c; types Ht; cbn in *; try discriminate; reflexivity).
  rewrite <- Hc.
  assert (HcI : In c int_types) by (rewrite Hc; destruct (iw t <=? 32); [cbn; auto 10|exact Ht]).
  assert (Cs : isg c = true) by (rewrite Hc; destruct (iw t <=? 32); [reflexivity|exact S]).
  assert (Cw : 32 <= iw c /\ iw t <= iw c) by (rewrite Hc; destruct (iw t <=? 32) eqn:E; [cbn; apply Z.leb_le in E; lia|apply Z.leb_gt in E; lia]).
  assert (Q : 2 ^ (iw t - 2) <= 2 ^ (iw c - 2)) by (apply Z.pow_le_mono_r; lia).
  assert (Q2 : 2 ^ 31 <= 2 ^ (iw c - 1)) by (apply Z.pow_le_mono_r; lia).
  assert (Q3 : 2 ^ (iw c - 1) = 2 * 2 ^ (iw c - 2)) by (rewrite <- Z.pow_succ_r by lia; f_equal; lia).
  rewrite (icast_id c v) by (split; [exact HcI|rewrite Cs; destruct Hv as [_ Hv]; cbn in Hv; cbn in Q2; lia]).
  rewrite (icast_id c (2 ^ F)) by (split; [exact HcI|rewrite Cs; lia]).
  unfold arith. rewrite Cs. destruct (fitsb c (v * 2 ^ F)); [|reflexivity]. cbn [obind]. rewrite icast_id by exact Hr. reflexivity.
Qed.
Lemma fp_of_int_exact t F v : In t int_types -> 0 <= F < iw t - 1 -> in_range int32 v -> in_range t (v * 2 ^ F) ->
  isg t = true -> fp_of_int t F v = Ret (v * 2 ^ F).
Proof.
  intros Ht HF Hv Hr S. rewrite (fp_of_int_spec t F v Ht HF Hv Hr S).
  set (x := v * 2 ^ F) in *. clearbody x.
  replace (fitsb (if iw t <=? 32 then int32 else t) x) with true; [reflexivity|]. symmetry.
  destruct (iw t <=? 32) eqn:E; [|apply fits_iff; assumption].
  apply fits_iff; [cbn; auto 10|]. destruct Hr as [_ Hr]. split; [cbn; auto 10|].
  types Ht; cbn in *; try discriminate; lia.
Qed.

(** *** BranchlessOps *)
Lemma bcast_id t x : value_of t x -> bcast t x = x.
Proof.
  destruct t as [|t]; cbn [value_of bcast]; [|apply icast_id]. intros [->| ->]; reflexivity.
Qed.
Lemma land_low w b : 0 <= w -> 0 <= b < 2 ^ w -> Z.land (Z.lnot (2 ^ w - 1)) b = 0.
Proof.
  intros Hw Hb. replace (2 ^ w - 1) with (Z.ones w) by (rewrite Z.ones_equiv; lia).
  rewrite Z.land_comm, <- Z.ldiff_land, Z.ldiff_ones_r by exact Hw. rewrite Z.shiftr_div_pow2 by exact Hw.
  rewrite Z.div_small by exact Hb. apply Z.shiftl_0_l.
Qed.
Lemma land_mask w a : 0 <= w -> 0 <= a < 2 ^ w -> Z.land (2 ^ w - 1) a = a.
Proof.
  intros Hw Ha. replace (2 ^ w - 1) with (Z.ones w) by (rewrite Z.ones_equiv; lia).
  rewrite Z.land_comm, Z.land_ones by exact Hw. apply Z.mod_small. exact Ha.
Qed.
Lemma blend_1 t a b : value_of t a -> value_of t b -> blend t (bcast t (-1)) a b = a.
Proof.
  intros Ha Hb. unfold blend. rewrite <- (bcast_id t a Ha) at 2. f_equal.
  destruct t as [|t]; cbn [value_of bcast bprom] in *.
  - destruct Ha as [->| ->], Hb as [->| ->]; reflexivity.
  - destruct Ha as [Ht Ha], Hb as [_ Hb]. types Ht; cbn [isg iw] in *;
    try (change (icast _ (-1)) with (-1); change (icast _ (Z.lnot (-1))) with 0; rewrite Z.land_m1_l, Z.land_0_l; apply Z.lor_0_r);
    [set (w := 8) in *|set (w := 16) in *|set (w := 32) in *|set (w := 64) in *];
    (change (icast _ (-1)) with (2 ^ w - 1); rewrite land_mask by (unfold w in *; lia)).
    + change (icast _ (Z.lnot (2 ^ w - 1))) with (Z.lnot (2 ^ w - 1)). rewrite land_low by (unfold w in *; lia). apply Z.lor_0_r.
    + change (icast _ (Z.lnot (2 ^ w - 1))) with (Z.lnot (2 ^ w - 1)). rewrite land_low by (unfold w in *; lia). apply Z.lor_0_r.
    + change (icast _ (Z.lnot (2 ^ w - 1))) with 0. rewrite Z.land_0_l. apply Z.lor_0_r.
    + change (icast _ (Z.lnot (2 ^ w - 1))) with 0. rewrite Z.land_0_l. apply Z.lor_0_r.
Qed.
Lemma blend_0 t a b : value_of t b -> blend t (bcast t 0) a b = b.
Proof.
  intros Hb. unfold blend. rewrite <- (bcast_id t b Hb) at 2. f_equal.
  destruct t as [|t]; cbn [value_of bcast bprom] in *.
  - change (if 0 =? 0 then 0 else 1) with 0. rewrite Z.land_0_l. change (icast int32 (Z.lnot 0)) with (-1). rewrite Z.land_m1_l. reflexivity.
  - destruct Hb as [Ht Hb].
    replace (icast t 0) with 0 by (types Ht; reflexivity). rewrite Z.land_0_l, Z.lor_0_l.
    types Ht; cbn [isg iw] in *;
    try (change (icast _ (Z.lnot 0)) with (-1); apply Z.land_m1_l).
    + change (icast _ (Z.lnot 0)) with (2 ^ 32 - 1). apply land_mask; lia.
    + change (icast _ (Z.lnot 0)) with (2 ^ 64 - 1). apply land_mask; lia.
Qed.
Lemma blend_if t c a b : value_of t a -> value_of t b -> blend t (bcast t (- b2z c)) a b = if c then a else b.
Proof. intros Ha Hb. destruct c; [apply blend_1; assumption|apply blend_0; assumption]. Qed.
Theorem min_spec t a b : value_of t a -> value_of t b -> bo_min t a b = Z.min a b.
Proof.
  intros Ha Hb. unfold bo_min. rewrite blend_if by assumption. destruct (Z.leb_spec a b); lia.
Qed.
Theorem max_spec t a b : value_of t a -> value_of t b -> bo_max t a b = Z.max a b.
Proof.
  intros Ha Hb. unfold bo_max. rewrite blend_if by assumption. destruct (Z.leb_spec b a); lia.
Qed.
Theorem select_spec t c x y : value_of t x -> value_of t y -> bo_select t c x y = if c then x else y.
Proof.
  intros Hx Hy. unfold bo_select.
  replace (bcast t (icast (bprom t) (- bcast t (b2z c)))) with (bcast t (- b2z c)).
  - apply blend_if; assumption.
  - destruct t as [|t]; [destruct c; reflexivity|]. cbn [value_of] in Hx. destruct Hx as [Ht _]. destruct c; types Ht; reflexivity.
Qed.
Theorem clamp_spec t x low high : value_of t x -> value_of t low -> value_of t high ->
  bo_clamp t x low high = Z.max low (Z.min x high).
Proof.
  intros Hx Hl Hh. unfold bo_clamp. rewrite (blend_if t _ x high Hx Hh).
  replace (if x <=? high then x else high) with (Z.min x high) by (destruct (Z.leb_spec x high); lia).
  rewrite blend_if; [|destruct (Z.min_spec x high) as [[_ ->]|[_ ->]]; assumption|exact Hl].
  destruct (Z.leb_spec low (Z.min x high)); lia.
Qed.
Theorem sign_spec t x : In t int_types -> isg t = true -> bo_sign t x = Z.sgn x.
Proof.
  intros Ht S. unfold bo_sign. replace (b2z (0 <? x) - b2z (x <? 0)) with (Z.sgn x) by (destruct x; reflexivity).
  apply icast_id. split; [exact Ht|]. rewrite S. destruct x; types Ht; cbn in *; try discriminate; lia.
Qed.
Theorem abs_spec t x : in_range t x -> isg t = true -> x <> - 2 ^ (iw t - 1) -> bo_abs t x = Ret (Z.abs x).
Proof.
  intros [Ht H] S N. rewrite S in H. unfold bo_abs.
  assert (P : 0 < 2 ^ (iw t - 1)) by (types Ht; reflexivity).
  assert (W : 0 <= iw t - 1) by (types Ht; cbn; lia).
  rewrite Z.shiftr_div_pow2 by exact W.
  destruct (Z.ltb_spec x 0).
  - replace (x / 2 ^ (iw t - 1)) with (-1) by (apply Z.div_unique with (x + 2 ^ (iw t - 1)); lia).
    replace (icast t (-1)) with (-1) by (types Ht; try discriminate; reflexivity).
    rewrite Z.lxor_m1_r. unfold Z.lnot. replace (Z.pred (- x) - -1) with (Z.abs x) by lia.
    rewrite add_like; [|exact Ht|intros; types Ht; cbn in *; lia].
    replace (fitsb t (Z.abs x)) with true; [reflexivity|]. symmetry. apply fits_iff; [exact Ht|]. split; [exact Ht|]. rewrite S. lia.
  - rewrite Z.div_small by lia. replace (icast t 0) with 0 by (types Ht; reflexivity). rewrite Z.lxor_0_r, Z.sub_0_r.
    rewrite add_like; [|exact Ht|intros; types Ht; cbn in *; lia].
    replace (fitsb t x) with true; [f_equal; lia|]. symmetry. apply fits_iff; [exact Ht|]. split; [exact Ht|]. rewrite S. lia.
Qed.
Theorem abs_min t : In t int_types -> isg t = true ->
  bo_abs t (- 2 ^ (iw t - 1)) = if 32 <=? iw t then UB UB_signed_overflow else Ret (- 2 ^ (iw t - 1)).
Proof. intros Ht S. types Ht; try discriminate; vm_compute; reflexivity. Qed.
