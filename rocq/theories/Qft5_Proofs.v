(** Bit flips: ratios, exponentials, critical charge, upsets. *)
From Coq Require Import List NArith ZArith Bool Arith Lia Reals Lra SpecFloat.
Import ListNotations.
From Flocq Require Import Core BinarySingleNaN.
From Verif Require Import Outcome Words Floats FloatsR HealthFloat Bits_Model RMA3_Proofs Tester3_Proofs Hw_Proofs Hw2_Proofs Qft_Model Qft_Spec Qft2_Proofs Qft4_Proofs.
Local Open Scope R_scope.

(** ** division with overflow *)
Lemma rnd_0 : rnd64 0 = 0. Proof. unfold rnd. apply round_0, valid_rnd_N. Qed.
Lemma rnd_pos x : 0 <= x -> 0 <= rnd64 x.
Proof. intros H. apply (rnd_le 53 1024) in H. rewrite rnd_0 in H. exact H. Qed.
Lemma divE x y : okd x -> okd y -> 0 <= R x -> 0 < R y -> dbl (ddiv x y) /\ E (ddiv x y) = Rmin BB (rnd64 (R x / R y)) /\ 0 <= rnd64 (R x / R y).
Proof.
  intros [Vx Fx] [Vy Fy] Px Py. assert (Q0 : 0 <= rnd64 (R x / R y)) by (apply rnd_pos, Rmult_le_pos; [exact Px|apply Rlt_le, Rinv_0_lt_compat; exact Py]).
  destruct (Rlt_or_le (Rabs (rnd64 (R x / R y))) BB) as [L|G].
  - destruct (div_R 53 1024 x y Vx Vy Fx ltac:(lra) ltac:(rewrite <- BB_eq; exact L)) as (A & B & C). split; [apply okd_dbl; split; assumption|]. unfold ddiv. rewrite (E_fin _ B), A.
    rewrite Rabs_pos_eq in L by exact Q0. rewrite Rmin_right by lra. split; [reflexivity|exact Q0].
  - rewrite Rabs_pos_eq in G by exact Q0.
    assert (Nx : R x <> 0). { intros Z0. rewrite Z0 in G. unfold Rdiv in G. rewrite Rmult_0_l, rnd_0 in G. pose proof BB_pos. lra. }
    pose proof (Bdiv_correct 53 1024 _ _ mode_NE (lift 53 1024 x Vx) (lift 53 1024 y Vy)) as H. rewrite !lift_R in H. specialize (H ltac:(lra)). rewrite <- BB_eq in H.
    rewrite Rlt_bool_false in H by (rewrite Rabs_pos_eq by exact Q0; exact G).
    pose proof (div_equiv 53 1024 (lift 53 1024 x Vx) (lift 53 1024 y Vy)) as Q. rewrite !lift_sf in Q. unfold ddiv. rewrite Q, H. unfold binary_overflow. cbn [overflow_to_inf].
    assert (S1 : forall z (Vz : V64 z = true), fin z = true -> 0 < R z -> Bsign (lift 53 1024 z Vz) = false).
    { intros z Vz Fz Nz. destruct z as [s|s| |s m e]; try discriminate Fz; [unfold R in Nz; cbn in Nz; lra|]. destruct s; [|reflexivity]. exfalso. unfold R, SF2R, F2R in Nz. cbn [cond_Zopp Fnum Fexp] in Nz.
      pose proof (bpow_ge_0 radix2 e). assert (IZR (Z.neg m) <= 0) by (apply IZR_le; lia). change (- Z.pos m)%Z with (Z.neg m) in Nz. nra. }
    rewrite (S1 x Vx Fx ltac:(lra)), (S1 y Vy Fy Py). cbn [xorb]. split; [split; [reflexivity|discriminate]|]. cbn [E]. rewrite Rmin_left by lra. split; [reflexivity|exact Q0].
Qed.
(** a number that is not negative, possibly infinite *)
Definition nneg (x : sf) : Prop := dbl x /\ 0 <= E x.
Lemma inf_div y a b : bnd a b y -> ddiv (S754_infinity false) y = S754_infinity false.
Proof. intros B. destruct (bnd_shape _ _ _ B) as (m & e & ->). reflexivity. Qed.
Lemma nneg_cases x : nneg x -> x = S754_infinity false \/ (okd x /\ 0 <= R x).
Proof.
  intros [[V N] H]. destruct x as [s|[]| |s m e]; cbn [E] in H; try (pose proof BB_pos; lra); auto; try congruence; right; (split; [split; [exact V|reflexivity]|exact H]).
Qed.
Lemma nneg_div x y a b : nneg x -> bnd a b y -> nneg (ddiv x y).
Proof.
  intros X Y. destruct (nneg_cases x X) as [->|[O P]].
  - rewrite (inf_div y a b Y). split; [split; [reflexivity|discriminate]|]. cbn [E]. pose proof BB_pos. lra.
  - destruct (divE x y O (proj1 Y) P (bnd_pos _ _ _ Y)) as (D & E' & Q). split; [exact D|]. rewrite E'. apply Rmin_glb; [pose proof BB_pos; lra|exact Q].
Qed.
Lemma nneg_div_mono x x' y a b : nneg x -> nneg x' -> bnd a b y -> E x <= E x' -> E (ddiv x y) <= E (ddiv x' y).
Proof.
  intros X X' Y L. pose proof (nneg_div x y a b X Y) as [D _]. destruct (nneg_cases x' X') as [->|[O' P']].
  - rewrite (inf_div y a b Y). cbn [E]. destruct (nneg_cases x X) as [->|[O P]]; [rewrite (inf_div y a b Y); cbn [E]; lra|].
    destruct (divE x y O (proj1 Y) P (bnd_pos _ _ _ Y)) as (_ & E' & Q). rewrite E'. apply Rmin_l.
  - destruct (nneg_cases x X) as [->|[O P]].
    + cbn [E] in L. pose proof (E_bound x' O'). lra.
    + destruct (divE x y O (proj1 Y) P (bnd_pos _ _ _ Y)) as (_ & E' & _). destruct (divE x' y O' (proj1 Y) P' (bnd_pos _ _ _ Y)) as (_ & E'' & _). rewrite E', E''.
      rewrite (E_fin _ (proj2 O)), (E_fin _ (proj2 O')) in L. apply Rle_min_compat_l, (rnd_le 53 1024). apply Rmult_le_compat_r; [apply Rlt_le, Rinv_0_lt_compat; exact (bnd_pos _ _ _ Y)|exact L].
Qed.
Lemma opp_E x : E (SFopp x) = - E x.
Proof. destruct x as [s|[]| |s m e]; [exact (opp_R (S754_zero s))|cbn [SFopp negb E]; lra|cbn [SFopp negb E]; lra|exact (opp_R S754_nan)|exact (opp_R (S754_finite s m e))]. Qed.
Lemma opp_dbl x : dbl x -> dbl (SFopp x).
Proof. intros [V N]. split; destruct x; try discriminate; try congruence; try reflexivity; exact V. Qed.
Lemma nneg_opp x : nneg x -> neg (SFopp x).
Proof. intros [D P]. split; [exact (opp_dbl x D)|]. rewrite opp_E. lra. Qed.

(** ** relative errors, in units of 1e-12 *)
Definition u12 : Rdefinitions.R := / 1000000000000.
Definition near (k : Z) (x : sf) (v : Rdefinitions.R) : Prop := 0 < v /\ v * (1 - IZR k * u12) <= R x <= v * (1 + IZR k * u12).
Lemma near_self a b x : bnd a b x -> near 0 x (R x).
Proof. intros B. split; [exact (bnd_pos _ _ _ B)|]. lra. Qed.
Lemma near_weak i j x v : near i x v -> (i <= j)%Z -> near j x v.
Proof. intros [P H] L. apply IZR_le in L. split; [exact P|]. unfold u12 in *. nra. Qed.
Lemma rnd_near t : b2 (-1022) <= t -> t * (1 - / 1000 * u12) <= rnd64 t <= t * (1 + / 1000 * u12).
Proof. intros H. pose proof (rnd64_rel t H) as Q. pose proof (bpow_gt_0 radix2 (-1022)). assert (0 < t) by lra. unfold u12. clear H H0. nra. Qed.
Lemma prod_near i j v w x y t : (0 <= i <= 1000)%Z -> (0 <= j <= 1000)%Z -> 0 < v -> 0 < w -> v * (1 - IZR i * u12) <= x <= v * (1 + IZR i * u12) -> w * (1 - IZR j * u12) <= y <= w * (1 + IZR j * u12) ->
  x * y * (1 - / 1000 * u12) <= t <= x * y * (1 + / 1000 * u12) -> v * w * (1 - IZR (i + j + 1) * u12) <= t <= v * w * (1 + IZR (i + j + 1) * u12).
Proof.
  intros [I1 I2] [J1 J2] V W A B T. apply IZR_le in I1, I2, J1, J2. rewrite !plus_IZR. set (a := IZR i) in *. set (b := IZR j) in *. unfold u12 in *.
  set (e := / 1000000000000) in *. assert (Ee : 0 < e <= / 1000000000000) by (unfold e; lra). clearbody a b e.
  set (a1 := a * e) in *. set (b1 := b * e) in *. assert (A1 : 0 <= a1 <= / 1000000000) by (unfold a1; nra). assert (B1 : 0 <= b1 <= / 1000000000) by (unfold b1; nra).
  assert (AB : a1 * b1 <= e / 1000). { unfold a1, b1. replace (a * e * (b * e)) with ((a * b) * e * e) by ring. assert (a * b <= 1000000) by nra. assert (0 <= a * b) by nra. assert ((a * b) * e <= 1000000 * / 1000000000000) by (apply Rmult_le_compat; lra). nra. }
  replace ((a + b + 1) * e) with (a1 + b1 + e) by (unfold a1, b1; ring). clearbody a1 b1.
  assert (VW : 0 < v * w) by nra.
  assert (XY1 : v * w * ((1 - a1) * (1 - b1)) <= x * y). { replace (v * w * ((1 - a1) * (1 - b1))) with ((v * (1 - a1)) * (w * (1 - b1))) by ring. apply Rmult_le_compat; nra. }
  assert (XY2 : x * y <= v * w * ((1 + a1) * (1 + b1))). { replace (v * w * ((1 + a1) * (1 + b1))) with ((v * (1 + a1)) * (w * (1 + b1))) by ring. apply Rmult_le_compat; nra. }
  split.
  - apply Rle_trans with (2 := proj1 T). apply Rle_trans with (v * w * ((1 - a1) * (1 - b1)) * (1 - / 1000 * e)); [|apply Rmult_le_compat_r; lra]. rewrite (Rmult_assoc (v * w)). apply Rmult_le_compat_l; [lra|]. nra.
  - apply Rle_trans with (1 := proj2 T). apply Rle_trans with (v * w * ((1 + a1) * (1 + b1)) * (1 + / 1000 * e)); [apply Rmult_le_compat_r; lra|]. rewrite (Rmult_assoc (v * w)). apply Rmult_le_compat_l; [lra|]. nra.
Qed.
Lemma normal a x : (-1022 <= a)%Z -> b2 a <= x -> b2 (-1022) <= x.
Proof. intros A H. pose proof (bpow_le radix2 _ _ A). lra. Qed.
Lemma near_mul i j a b c d x y v w : bnd a b x -> bnd c d y -> near i x v -> near j y w -> (0 <= i <= 1000)%Z -> (0 <= j <= 1000)%Z -> (-1022 <= a + c)%Z -> (b + d <= 1000)%Z ->
  bnd (a + c) (b + d) (dmul x y) /\ near (i + j + 1) (dmul x y) (v * w).
Proof.
  intros Bx By [V Nx] [W Ny] I J L U. destruct (bnd_mul a b c d x y Bx By ltac:(lia) U) as [B EQ]. split; [exact B|]. split; [nra|]. rewrite EQ.
  apply (prod_near i j v w (R x) (R y)); try assumption. apply rnd_near. apply (normal (a + c)); [exact L|]. rewrite bpow_plus. pose proof (bpow_gt_0 radix2 a). pose proof (bpow_gt_0 radix2 c). apply Rmult_le_compat; try lra; [apply Bx|apply By].
Qed.
Lemma near_inv j y w : (0 <= j <= 999)%Z -> 0 < w -> w * (1 - IZR j * u12) <= y <= w * (1 + IZR j * u12) -> / w * (1 - IZR (j + 1) * u12) <= / y <= / w * (1 + IZR (j + 1) * u12).
Proof.
  intros [J1 J2] W H. apply IZR_le in J1, J2. rewrite plus_IZR. set (b := IZR j) in *. clearbody b. unfold u12 in *. assert (Y : 0 < y) by nra. pose proof (Rinv_0_lt_compat w W) as IW. pose proof (Rinv_0_lt_compat y Y) as IY.
  assert (Q : / w * y * (/ y) = / w) by (field; lra). set (r := / w * y) in *.
  assert (RB : 1 - b * / 1000000000000 <= r <= 1 + b * / 1000000000000). { unfold r. assert (WW : / w * w = 1) by (field; lra). split; nra. }
  assert (Y1 : / y = / w * / r). { unfold r. field. lra. } rewrite Y1. assert (RP : 0 < r) by nra. assert (RI : r * / r = 1) by (field; lra). pose proof (Rinv_0_lt_compat r RP).
  split; apply Rmult_le_compat_l; try lra; nra.
Qed.
Lemma near_div i j a b c d x y v w : bnd a b x -> bnd c d y -> near i x v -> near j y w -> (0 <= i <= 999)%Z -> (0 <= j <= 999)%Z -> (-1022 <= a - d)%Z -> (b - c <= 1000)%Z ->
  bnd (a - d) (b - c) (ddiv x y) /\ near (i + j + 2) (ddiv x y) (v / w).
Proof.
  intros Bx By [V Nx] [W Ny] I J L U. destruct (bnd_div a b c d x y Bx By ltac:(lia) U) as [B EQ]. split; [exact B|]. pose proof (Rinv_0_lt_compat w W) as IW. split; [unfold Rdiv; nra|]. rewrite EQ.
  replace (i + j + 2)%Z with (i + (j + 1) + 1)%Z by lia. unfold Rdiv. apply (prod_near i (j + 1) v (/ w) (R x) (/ R y)); try assumption; try lia; [apply near_inv; assumption|].
  apply rnd_near. apply (normal (a - d)); [exact L|]. unfold Zminus. rewrite bpow_plus, bpow_opp. pose proof (bpow_gt_0 radix2 a). pose proof (bpow_gt_0 radix2 c). pose proof (bpow_gt_0 radix2 d). destruct Bx as [_ Bx]. destruct By as [_ By].
  apply Rmult_le_compat; try lra; [apply Rlt_le, Rinv_0_lt_compat; lra|apply Rinv_le; lra].
Qed.
Lemma near_add i a b c x y v w : bnd a b x -> bnd c b y -> near i x v -> near i y w -> (0 <= i <= 1000)%Z -> (-1022 <= a)%Z -> (b < 1000)%Z ->
  bnd a (b + 1) (dadd x y) /\ near (i + 1) (dadd x y) (v + w).
Proof.
  intros Bx By [V Nx] [W Ny] [I1 I2] L U. pose proof (bnd_pos _ _ _ By). destruct (bnd_add a b x y Bx (proj1 By) ltac:(destruct By as [_ By]; lra) ltac:(lia) U) as [B EQ]. split; [exact B|]. split; [lra|]. rewrite EQ.
  assert (N : b2 (-1022) <= R x + R y). { apply (normal a); [exact L|]. destruct Bx as [_ Bx]. lra. }
  pose proof (rnd_near _ N) as RN. apply IZR_le in I1, I2. rewrite plus_IZR. set (k := IZR i) in *. clearbody k. unfold u12 in *. assert (VW : 0 < v + w) by lra. clear -RN Nx Ny VW V W I1 I2.
  set (s := R x + R y) in *. assert (S1 : (v + w) * (1 - k * / 1000000000000) <= s <= (v + w) * (1 + k * / 1000000000000)) by (unfold s; lra). clearbody s. nra.
Qed.
(** ** physical constants and materials *)
Lemma mod_bnd x : between (/ 1048576) 1048576 x -> bnd (-20) 20 x.
Proof. intros [O B]. split; [exact O|]. exact B. Qed.
Section X.
Variables fexp fpow2 : sf -> sf.
Hypothesis X : exp_lib fexp.
Hypothesis P2 : pow2_lib fpow2.
Lemma er_range b t : bnd (-300) 300 b -> cold_or (-300) 300 t -> inr 0 1 (er_tunnel fexp b t).
Proof. intros B T. apply (tunnel_range fexp X); [exact B| | |exact T]; (eapply bnd_weak; [apply (lit_bnd (-100) (-40))|lia|lia]); vm_compute; reflexivity. Qed.
End X.
