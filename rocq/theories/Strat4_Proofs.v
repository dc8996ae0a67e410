(** Delays, protection levels, checkpoint intervals, shares: float arithmetic of the controllers. *)
From Coq Require Import String List NArith ZArith Bool SpecFloat Lia Reals Lra.
Import ListNotations.
From Flocq Require Import Core.
From Flocq.IEEE754 Require Import BinarySingleNaN.
From Verif Require Import Outcome Words Floats FloatsR HealthFloat Approx_Model Bits_Model Health_Proofs MBP6_Proofs RMA3_Proofs Power2_Proofs Power4_Proofs Strat_Model Strat_Spec Strat_Proofs Strat2_Proofs Strat3_Proofs.
Local Open Scope R_scope.

(** ** Signs *)
Definition nonneg (x : sf) : Prop := match x with S754_finite true _ _ | S754_infinity true => False | _ => True end.
Definition signless (x : sf) : Prop := match x with S754_finite true _ _ | S754_infinity true | S754_zero true => False | _ => True end.
Lemma bra_sign prec emax m e l : signless (SpecFloat.binary_round_aux prec emax false m e l).
Proof.
  unfold SpecFloat.binary_round_aux. destruct (shr_fexp _ _ _ _ _) as [a b]. destruct (shr_fexp _ _ _ _ _) as [a' b']. destruct (shr_m a'); cbn; try exact I. destruct (Zle_bool _ _); exact I.
Qed.
Lemma mul_nonneg x y : nonneg x -> nonneg y -> nonneg (dmul x y).
Proof.
  unfold dmul, SFmul. destruct x as [s|s| |s m e], y as [s'|s'| |s' m' e']; try destruct s; try destruct s'; cbn [nonneg xorb]; try tauto.
  intros _ _. pose proof (bra_sign 53 1024 (Z.pos (m * m')) (e + e') loc_Exact) as B. destruct (SpecFloat.binary_round_aux _ _ _ _ _ _) as [[]|[]| |[] q w]; exact B || exact I.
Qed.
Lemma div_nonneg x y : nonneg x -> signless y -> nonneg (ddiv x y).
Proof.
  unfold ddiv, SFdiv. destruct x as [s|s| |s m e], y as [s'|s'| |s' m' e']; try destruct s; try destruct s'; cbn [nonneg signless xorb]; try tauto.
  intros _ _. destruct (SFdiv_core_binary _ _ _ _ _ _) as [[q w] l]. pose proof (bra_sign 53 1024 q w l) as B. destruct (SpecFloat.binary_round_aux _ _ _ _ _ _) as [[]|[]| |[] q' w']; exact B || exact I.
Qed.
Lemma div_signless x y : signless x -> signless y -> signless (ddiv x y).
Proof.
  unfold ddiv, SFdiv. destruct x as [s|s| |s m e], y as [s'|s'| |s' m' e']; try destruct s; try destruct s'; cbn [nonneg signless xorb]; try tauto.
  intros _ _. destruct (SFdiv_core_binary _ _ _ _ _ _) as [[q w] l]. apply (bra_sign 53 1024 q w l).
Qed.
Lemma trunc_nonneg x z : nonneg x -> trunc_sf x = Some z -> (0 <= z)%Z.
Proof.
  destruct x as [s|s| |[] m e]; cbn [trunc_sf nonneg]; intros H E; try discriminate; try tauto; injection E as <-; [lia|].
  destruct (0 <=? e)%Z eqn:Q; [apply Z.leb_le in Q; assert (0 <= 2 ^ e)%Z by (apply Z.pow_nonneg; lia); change (0 <= Z.pos m * 2 ^ e)%Z; apply Z.mul_nonneg_nonneg; lia|]. apply Z.div_pos; [lia|]. apply Z.leb_gt in Q. apply Z.pow_pos_nonneg; lia.
Qed.
Lemma cast_nonneg t x z : nonneg x -> fcast t x = Ret z -> (0 <= z)%Z.
Proof.
  intros H. unfold fcast. destruct (trunc_sf x) as [y|] eqn:E; [|discriminate]. destruct (fitsb t y); [|discriminate]. intros Q. injection Q as <-. exact (trunc_nonneg x y H E).
Qed.
Lemma not_below x : flt x (dofZ 0) = false -> nonneg x.
Proof. change (dofZ 0) with (S754_zero false). destruct x as [s|[]| |[] m e]; cbn; intros H; try exact I; discriminate. Qed.
Lemma above x : flt (dofZ 0) x = true -> signless x.
Proof. change (dofZ 0) with (S754_zero false). destruct x as [[]|[]| |[] m e]; cbn; intros H; try exact I; discriminate. Qed.
Lemma okd_nonneg x : okd x -> 0 <= R x -> nonneg x.
Proof.
  intros [V F] H. destruct x as [s|s| |[] m e]; try exact I; [discriminate F|]. unfold R, SF2R, F2R in H. cbn in H. pose proof (bpow_gt_0 radix2 e) as B.
  assert (IZR (Z.neg m) < 0) by (apply IZR_lt; reflexivity). nra.
Qed.

(** ** Nonnegative doubles bounded by an integer *)
Definition nz (b : Z) (x : sf) : Prop := okd x /\ 0 <= R x <= IZR b.
Lemma nz_le a b x : (a <= b)%Z -> nz a x -> nz b x.
Proof. intros H [O [A B]]. apply IZR_le in H. split; [exact O|lra]. Qed.
Lemma big b : (0 <= b < 2 ^ 53)%Z -> 0 <= IZR b <= 9007199254740992.
Proof. intros [A B]. apply IZR_le in A. assert (b <= 9007199254740992)%Z by (change (2 ^ 53)%Z with 9007199254740992%Z in B; lia). apply IZR_le in H. lra. Qed.
Lemma rnd_up b x : (0 <= b < 2 ^ 53)%Z -> x <= IZR b -> rnd64 x <= IZR b.
Proof. intros H L. rewrite <- (rnd_z b) by lia. apply rnd_mono. exact L. Qed.
Lemma nz_add a b x y : nz a x -> nz b y -> (a + b < 2 ^ 53)%Z -> nz (a + b) (dadd x y) /\ R (dadd x y) = rnd64 (R x + R y).
Proof.
  intros [Ox [Lx Ux]] [Oy [Ly Uy]] H. assert (0 <= a)%Z by (apply le_IZR; lra). assert (0 <= b)%Z by (apply le_IZR; lra). pose proof (big (a + b) ltac:(lia)) as B. rewrite plus_IZR in B.
  destruct (add_d x y Ox Oy) as [O E]; [apply midz; lra|]. split; [|exact E]. split; [exact O|]. rewrite E. split; [apply rnd_pos; lra|]. apply rnd_up; [lia|]. rewrite plus_IZR. lra.
Qed.
Lemma nz_mul a b x y : nz a x -> nz b y -> (a * b < 2 ^ 53)%Z -> nz (a * b) (dmul x y) /\ R (dmul x y) = rnd64 (R x * R y).
Proof.
  intros [Ox [Lx Ux]] [Oy [Ly Uy]] H. assert (A0 : (0 <= a)%Z) by (apply le_IZR; lra). assert (B0 : (0 <= b)%Z) by (apply le_IZR; lra). pose proof (big (a * b) ltac:(nia)) as B. rewrite mult_IZR in B.
  assert (P : 0 <= R x * R y <= IZR a * IZR b) by (split; [apply Rmult_le_pos; lra|apply Rmult_le_compat; lra]).
  destruct (mul_d x y Ox Oy) as [O E]; [apply midz; lra|]. split; [|exact E]. split; [exact O|]. rewrite E. split; [apply rnd_pos; lra|]. apply rnd_up; [nia|]. rewrite mult_IZR. lra.
Qed.
(** divided by something at least 1/d *)
Lemma nz_div a d x y : nz a x -> okd y -> (0 < d)%Z -> / IZR d <= R y -> (a * d < 2 ^ 53)%Z -> nz (a * d) (ddiv x y) /\ R (ddiv x y) = rnd64 (R x / R y).
Proof.
  intros [Ox [Lx Ux]] Oy D Ly H. assert (A0 : (0 <= a)%Z) by (apply le_IZR; lra). pose proof (big (a * d) ltac:(nia)) as B. rewrite mult_IZR in B. apply IZR_lt in D as D'.
  pose proof (Rinv_0_lt_compat _ D') as I. assert (Y : 0 < R y) by lra. assert (Yi : / R y <= IZR d) by (rewrite <- (Rinv_inv (IZR d)); apply Rinv_le; lra).
  pose proof (Rinv_0_lt_compat _ Y) as YI. assert (P : 0 <= R x / R y <= IZR a * IZR d) by (unfold Rdiv; split; [apply Rmult_le_pos; lra|apply Rmult_le_compat; lra]).
  destruct (div_d x y Ox Oy ltac:(lra)) as [O E]; [apply midz; lra|]. split; [|exact E]. split; [exact O|]. rewrite E. split; [apply rnd_pos; lra|]. apply rnd_up; [nia|]. rewrite mult_IZR. lra.
Qed.
Lemma nz_ofZ z : (0 <= z < 2 ^ 53)%Z -> nz z (dofZ z) /\ R (dofZ z) = IZR z.
Proof. intros H. destruct (ofZ_ex z ltac:(lia)) as [O E]. split; [|exact E]. split; [exact O|]. rewrite E. split; [apply IZR_le; lia|lra]. Qed.
Lemma quot_mono x x' y y' : 0 <= x <= x' -> 0 < y' <= y -> rnd64 (x / y) <= rnd64 (x' / y').
Proof.
  intros [A B] [C D]. apply rnd_mono. unfold Rdiv. pose proof (Rinv_0_lt_compat y ltac:(lra)). assert (/ y <= / y') by (apply Rinv_le; lra). apply Rmult_le_compat; lra.
Qed.
Lemma prod_mono x x' y y' : 0 <= x <= x' -> 0 <= y <= y' -> rnd64 (x * y) <= rnd64 (x' * y').
Proof. intros [A B] [C D]. apply rnd_mono. apply Rmult_le_compat; lra. Qed.
Lemma within_R lo hi x : okd lo -> okd hi -> within lo hi x -> okd x /\ R lo <= R x <= R hi.
Proof.
  intros Ol Oh (V & A & B). assert (O : okd x).
  { split; [exact V|]. destruct Ol as [_ Fl], Oh as [_ Fh]. destruct x as [s|[]| |s m e]; try reflexivity; [destruct lo as [[]|[]| |[] m e]|destruct hi as [[]|[]| |[] m e]|]; try discriminate Fl; try discriminate Fh; try discriminate A; try discriminate B. }
  split; [exact O|]. apply fle_d in A; auto. apply fle_d in B; auto.
Qed.
Lemma up_R b x : (0 <= b < 2 ^ 53)%Z -> up_to (dofZ b) x -> nz b x.
Proof. intros H W. destruct (ofZ_ex b ltac:(lia)) as [Ob Eb], Z0 as [O0 E0]. destruct (within_R _ _ _ O0 Ob W) as [O B]. rewrite E0, Eb in B. split; assumption. Qed.

(** ** The delay of HYBRID *)
Lemma W2 : okd (dlit 2 10) /\ 19/100 < R (dlit 2 10) < 21/100. Proof. lit. Qed.
Lemma W3 : okd (dlit 3 10) /\ 29/100 < R (dlit 3 10) < 31/100. Proof. lit. Qed.
Lemma W1 : okd (dlit 1 10) /\ 9/100 < R (dlit 1 10) < 11/100. Proof. lit. Qed.
Definition cap (i : nat) : Z := match i with O => 100000 | _ => 10 end.
Definition state_in (i : nat) (x : scale) : Prop := (0 <= state x <= cap i)%Z.
Definition scales_in (l : list scale) : Prop := length l = 5%nat /\ forall i, (i < 5)%nat -> state_in i (nth i l (mkSc 0 0)).
Local Opaque dlit dofZ dadd dsub dmul ddiv.
(** one factor 1 + w * state / 10 *)
Lemma one_factor w z b f g : okd w -> 0 < R w < 31/100 -> (0 <= z <= 100000)%Z -> (31 * z <= 1000 * (b - 1))%Z -> (b < 2 ^ 20)%Z -> (g < 2 ^ 30)%Z -> okd f -> 1 <= R f <= IZR g ->
  let r := dmul f (dadd (dofZ 1) (ddiv (dmul w (dofZ z)) (dofZ 10))) in okd r /\ 1 <= R r <= IZR (g * b).
Proof.
  intros Ow Bw Hz Hb Lb Lg Of Bf. destruct (nz_ofZ z ltac:(lia)) as [Nz Ez], (nz_ofZ 10 ltac:(lia)) as [[O10 _] E10], (nz_ofZ 1 ltac:(lia)) as [[O1 _] E1].
  assert (B1 : (1 <= b)%Z) by lia. assert (G1 : (1 <= g)%Z) by (apply le_IZR; lra). pose proof (IZR_le 0 z ltac:(lia)) as Z0'. pose proof (IZR_le z 100000 ltac:(lia)) as Z1'. apply IZR_le in B1 as B1'.
  assert (ZB : 31 / 1000 * IZR z <= IZR b - 1). { apply IZR_le in Hb. rewrite !mult_IZR, minus_IZR in Hb. lra. }
  destruct (mul_d w (dofZ z) Ow (proj1 Nz)) as [Om Em]; [rewrite Ez; apply midz; nra|]. rewrite Ez in Em.
  assert (M0 : 0 <= R (dmul w (dofZ z))) by (rewrite Em; apply rnd_pos; nra).
  assert (M1 : R (dmul w (dofZ z)) <= 10 * (IZR b - 1)).
  { rewrite Em. replace (10 * (IZR b - 1)) with (IZR (10 * (b - 1))) by (rewrite mult_IZR, minus_IZR; lra). apply rnd_up; [lia|]. rewrite mult_IZR, minus_IZR. nra. }
  apply IZR_lt in Lb as Lb'. change (2 ^ 20)%Z with 1048576%Z in Lb'.
  destruct (div_d _ (dofZ 10) Om O10) as [Od Ed]; [rewrite E10; lra|rewrite E10; apply midz; unfold Rdiv; nra|]. rewrite E10 in Ed.
  assert (D0 : 0 <= R (ddiv (dmul w (dofZ z)) (dofZ 10))) by (rewrite Ed; apply rnd_pos; lra).
  assert (D1 : R (ddiv (dmul w (dofZ z)) (dofZ 10)) <= IZR b - 1) by (rewrite Ed, <- minus_IZR; apply rnd_up; [lia|rewrite minus_IZR; lra]).
  destruct (add_d (dofZ 1) _ O1 Od) as [Oa Ea]; [rewrite E1; apply midz; lra|]. rewrite E1 in Ea.
  assert (A0 : 1 <= R (dadd (dofZ 1) (ddiv (dmul w (dofZ z)) (dofZ 10)))) by (rewrite Ea, <- (rnd_z 1) at 1 by reflexivity; apply rnd_mono; lra).
  assert (A1 : R (dadd (dofZ 1) (ddiv (dmul w (dofZ z)) (dofZ 10))) <= IZR b) by (rewrite Ea; apply rnd_up; [lia|lra]).
  intros r. destruct (nz_mul g b f (dadd (dofZ 1) (ddiv (dmul w (dofZ z)) (dofZ 10)))) as [[Or Br] Er]; [split; [exact Of|lra]|split; [exact Oa|lra]|nia|]. fold r in Or, Br, Er.
  split; [exact Or|]. split; [|apply Br]. rewrite Er, <- (rnd_z 1) at 1 by reflexivity. apply rnd_mono. nra.
Qed.
Lemma factor_R l : scales_in l -> okd (protection_factor l) /\ 1 <= R (protection_factor l) <= 49616.
Proof.
  intros [L S]. destruct l as [|x0 [|x1 [|x2 [|x3 [|x4 [|]]]]]]; try discriminate L. clear L.
  pose proof (S 0%nat ltac:(lia)) as S0. pose proof (S 1%nat ltac:(lia)) as S1. pose proof (S 2%nat ltac:(lia)) as S2. pose proof (S 3%nat ltac:(lia)) as S3. pose proof (S 4%nat ltac:(lia)) as S4.
  unfold state_in in *. cbn [nth cap] in *. unfold protection_factor, weights5. cbn [combine fold_left fst snd].
  destruct Z1 as [OO EO], W2 as [O2 B2], W3 as [O3 B3], W1 as [O1 B1].
  destruct (one_factor (dlit 2 10) (state x0) 3101 (dofZ 1) 1) as [F1 G1]; try lia; auto; try lra.
  match type of F1 with okd ?t => destruct (one_factor (dlit 3 10) (state x1) 2 t (1 * 3101)) as [F2 G2]; [exact O3|lra|lia|lia|lia|lia|exact F1|exact G1|] end.
  match type of F2 with okd ?t => destruct (one_factor (dlit 2 10) (state x2) 2 t (1 * 3101 * 2)) as [F3 G3]; [exact O2|lra|lia|lia|lia|lia|exact F2|exact G2|] end.
  match type of F3 with okd ?t => destruct (one_factor (dlit 2 10) (state x3) 2 t (1 * 3101 * 2 * 2)) as [F4 G4]; [exact O2|lra|lia|lia|lia|lia|exact F3|exact G3|] end.
  match type of F4 with okd ?t => destruct (one_factor (dlit 1 10) (state x4) 2 t (1 * 3101 * 2 * 2 * 2)) as [F5 G5]; [exact O1|lra|lia|lia|lia|lia|exact F4|exact G4|] end.
  split; [exact F5|exact G5].
Qed.
Lemma delay_R l : scales_in l -> let d := dmul (dofZ 50) (protection_factor l) in okd d /\ 50 <= R d <= 2480800.
Proof.
  intros S d. destruct (factor_R l S) as [Of Bf]. destruct (nz_ofZ 50 ltac:(lia)) as [N50 E50].
  destruct (nz_mul 50 49616 (dofZ 50) (protection_factor l) N50) as [[Od Bd] Ed]; [split; [exact Of|lra]|lia|]. split; [exact Od|]. split; [|apply Bd]. unfold d. rewrite Ed, E50, <- (rnd_z 50) at 1 by reflexivity. apply rnd_mono. lra.
Qed.
Lemma delay_between l : scales_in l -> exists z, fcast int32 (dmul (dofZ 50) (protection_factor l)) = Ret z /\ (50 <= z <= 2480800)%Z.
Proof.
  intros S. destruct (delay_R l S) as [Od Bd]. cbv zeta in Od, Bd. set (d := dmul (dofZ 50) (protection_factor l)) in *. destruct (trunc_between d 2480800 (proj2 Od)) as (z & T & Hz); [lra|].
  exists z. unfold fcast. rewrite T. assert (Hz' : (50 <= z)%Z).
  { destruct d as [s|s| |s m e]; try discriminate T; [unfold R, SF2R in Bd; lra|]. cbn [trunc_sf] in T. assert (Tz : z = if s then (- (if 0 <=? e then Z.pos m * 2 ^ e else Z.pos m / 2 ^ (- e)))%Z else (if 0 <=? e then Z.pos m * 2 ^ e else Z.pos m / 2 ^ (- e))%Z) by congruence. clear T. unfold R, SF2R, F2R in Bd. cbn [Fnum Fexp] in Bd. pose proof (bpow_gt_0 radix2 e) as P.
    destruct s; [exfalso; cbn [cond_Zopp] in Bd; assert (IZR (Z.opp (Z.pos m)) < 0) by (apply IZR_lt; reflexivity); nra|]. cbn [cond_Zopp] in Bd.
    rewrite Tz. clear Tz. destruct (0 <=? e)%Z eqn:Q.
    - apply Z.leb_le in Q. apply le_IZR. rewrite mult_IZR, (IZR_Zpower radix2) by exact Q. lra.
    - apply Z.leb_gt in Q. apply Z.div_le_lower_bound; [apply Z.pow_pos_nonneg; lia|]. apply le_IZR. rewrite mult_IZR, (IZR_Zpower radix2) by lia.
      assert (X : bpow radix2 e * bpow radix2 (- e) = 1) by (rewrite <- bpow_plus; replace (e + - e)%Z with 0%Z by lia; reflexivity). pose proof (bpow_gt_0 radix2 (- e)) as P'. nra. }
  split; [|lia]. assert (F : fitsb int32 z = true) by (unfold fitsb; apply andb_true_intro; split; apply Z.leb_le; [change (imin int32) with (-2147483648)%Z|change (imax int32) with 2147483647%Z]; lia).
  rewrite F. reflexivity.
Qed.
(** every scale state that is ever computed in a plausible environment *)
Section Scales.
Variables (dexp dpow2 : sf -> sf).
Hypothesis exp_pos : forall x, flt (dexp x) (dofZ 0) = false.
Lemma pl_solar e : plausible e -> nz 1 (solar e). Proof. intros (A & _). apply up_R; [lia|exact A]. Qed.
Lemma pl_proton e : plausible e -> nz (10 ^ 12) (proton e). Proof. intros (_ & A & _). apply up_R; [lia|exact A]. Qed.
Lemma pl_electron e : plausible e -> nz (10 ^ 12) (electron e). Proof. intros (_ & _ & A). apply up_R; [lia|exact A]. Qed.
Lemma temp_nonneg t : nonneg (temperature_factor dexp t).
Proof. unfold temperature_factor. apply mul_nonneg; [apply okd_nonneg; [apply Z1|destruct Z1 as [_ ->]; lra]|]. apply not_below, exp_pos. Qed.
Lemma min10 z : (0 <= z)%Z -> (0 <= Z.min 10 z <= 10)%Z. Proof. lia. Qed.
Lemma state_at_in i e m z : plausible e -> flt (dofZ 0) (tolerance m) = true -> state_at dexp i e m = Ret z -> (0 <= z <= cap i)%Z.
Proof.
  intros P T H. pose proof (pl_solar e P) as [Os Bs]. pose proof (pl_proton e P) as Np. pose proof (pl_electron e P) as Ne.
  assert (N : nonneg (dofZ 10) /\ signless (dofZ 100)) by (split; vm_compute; exact I). destruct N as [N10 S100].
  destruct i as [|[|[|[|i]]]]; cbn [state_at cap] in *.
  - destruct (nz_ofZ 10000000 ltac:(lia)) as [[O7 _] E7].
    destruct (div_d (proton e) (dofZ 10000000) (proj1 Np) O7) as [Od Ed]; [lra|rewrite E7; apply midz; destruct Np as [_ B]; change (IZR (10 ^ 12)) with 1000000000000 in B; lra|].
    destruct (trunc_between (ddiv (proton e) (dofZ 10000000)) 100000 (proj2 Od)) as (y & Ty & By).
    { rewrite Ed, E7. destruct Np as [_ B]; change (IZR (10 ^ 12)) with 1000000000000 in B. split; [apply rnd_pos; lra|apply rnd_up; [lia|lra]]. }
    unfold fcast in H. rewrite Ty in H. destruct (fitsb int32 y); [|discriminate]. injection H as <-. exact By.
  - destruct (saa e); [injection H as <-; lia|]. destruct (fgt _ _); injection H as <-; lia.
  - unfold phase_state in H. destruct (saa e); [injection H as <-; lia|]. destruct (fgt _ _); [injection H as <-; lia|]. destruct (fgt _ _); [injection H as <-; lia|].
    destruct (fcast int32 _) as [y| | |] eqn:F; try discriminate H. cbn [obind] in H. injection H as <-. apply min10. eapply cast_nonneg; [|exact F].
    apply mul_nonneg; [|exact N10]. apply div_nonneg; [|vm_compute; exact I]. destruct (nz_add _ _ _ _ Np Ne ltac:(lia)) as [[O B] _]. apply okd_nonneg; [exact O|apply B].
  - unfold health_state in H. destruct (fcast int32 _) as [y| | |] eqn:F; try discriminate H. cbn [obind] in H. injection H as <-. apply min10. eapply cast_nonneg; [|exact F].
    apply div_nonneg; [apply mul_nonneg; [vm_compute; exact I|apply temp_nonneg]|]. apply div_signless; [apply above; exact T|exact S100].
  - unfold long_state in H. destruct (fcast int32 _) as [y| | |] eqn:F; try discriminate H. cbn [obind] in H. injection H as <-. apply min10. eapply cast_nonneg; [|exact F].
    apply mul_nonneg; [apply okd_nonneg; [exact Os|apply Bs]|exact N10].
Qed.
Lemma update_in now e m : plausible e -> flt (dofZ 0) (tolerance m) = true -> forall l iv i l', update_scales dexp i l iv now e m = Ret l' ->
  (forall k, (k < length l)%nat -> state_in (i + k) (nth k l (mkSc 0 0))) -> length l' = length l /\ forall k, (k < length l)%nat -> state_in (i + k) (nth k l' (mkSc 0 0)).
Proof.
  intros P T. induction l as [|x l IH]; intros iv i l' H G; destruct iv as [|d iv]; cbn [update_scales] in H; try (injection H as <-; split; [reflexivity|exact G]).
  assert (X : exists x', (if (d <=? now - last_update x)%Z then obind (state_at dexp i e m) (fun z => Ret (mkSc now z)) else Ret x) = Ret x' /\ state_in i x').
  { destruct (d <=? now - last_update x)%Z.
    - destruct (state_at dexp i e m) as [z| | |] eqn:S; try discriminate H. cbn [obind]. eexists. split; [reflexivity|]. exact (state_at_in i e m z P T S).
    - eexists. split; [reflexivity|]. specialize (G 0%nat). rewrite Nat.add_0_r in G. apply G. cbn [length]. lia. }
  destruct X as (x' & Ex & Sx). rewrite Ex in H. cbn [obind] in H. destruct (update_scales dexp (S i) l iv now e m) as [r| | |] eqn:U; try discriminate H. cbn [obind] in H. injection H as <-.
  destruct (IH iv (S i) r U) as [L N]; [intros k Hk; specialize (G (S k)); cbn [nth length] in G; rewrite Nat.add_succ_r in G; apply G; lia|]. split; [cbn [length]; lia|].
  intros [|k] Hk; cbn [nth length] in *; [rewrite Nat.add_0_r; exact Sx|]. rewrite Nat.add_succ_r. apply (N k). lia.
Qed.
Lemma new_scales_in now : scales_in (scales_new now).
Proof. split; [reflexivity|]. intros i H. unfold state_in, scales_new. rewrite nth_repeat_lt || (destruct i as [|[|[|[|[|i]]]]]; cbn [nth repeat cap state]; lia). Qed.
Lemma run_scales : forall l p q, plausible_calls l -> flt (dofZ 0) (tolerance (mat p)) = true -> scales_in (scales p) -> pdp_run dexp dpow2 p l = Ret q -> scales_in (scales q).
Proof.
  induction l as [|o l IH]; intros p q PC T S H; cbn [pdp_run] in H; [injection H as <-; exact S|]. inversion PC as [|? ? P0 PC']; subst.
  destruct (pdp_do dexp dpow2 p o) as [p'| | |] eqn:E; try discriminate H. refine (IH p' q PC' _ _ H); destruct o as [i s|k|now e st]; cbn [pdp_do] in E; try (injection E as <-).
  - unfold pdp_sensitivity. destruct (_ && _)%bool; exact T.
  - exact T.
  - unfold pdp_update in E. destruct (update_scales _ _ _ _ _ _ _); cbn [obind] in E; try discriminate E. injection E as <-. exact T.
  - unfold pdp_sensitivity. destruct (_ && _)%bool; exact S.
  - exact S.
  - unfold pdp_update in E. destruct (update_scales _ _ _ _ _ _ _) as [sc| | |] eqn:U; cbn [obind] in E; try discriminate E. injection E as <-. cbn [scales]. destruct S as [L S].
    destruct (update_in now e (mat p) P0 T _ _ _ _ U) as [L' N]; [rewrite L; exact S|]. rewrite L in L', N. split; [exact L'|exact N].
Qed.
(** what every history guarantees *)
Lemma run_ready m n now l q : plausible_calls l -> flt (dofZ 0) (tolerance m) = true -> pdp_run dexp dpow2 (pdp_new m n now) l = Ret q ->
  policy_some (pol q) /\ delay_ok (dmul (dofZ 50) (protection_factor (scales q))).
Proof.
  intros PC T H. split; [exact (run_some dexp dpow2 _ _ _ (new_some m n now) H)|]. destruct (delay_between (scales q)) as (z & E & _); [|exists z; exact E].
  exact (run_scales l (pdp_new m n now) q PC T (new_scales_in now) H).
Qed.
End Scales.
