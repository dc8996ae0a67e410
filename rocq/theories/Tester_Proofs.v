From Coq Require Import List NArith ZArith Bool Lia Reals Lra Psatz SpecFloat.
From Flocq Require Import Core.
From Flocq.IEEE754 Require Import BinarySingleNaN.
Import ListNotations.
From Verif Require Import Outcome Words Arith Floats FloatsR HealthFloat FloatsS Bits_Model PNN_Model Train_Model RMA3_Proofs Power4_Proofs Strat6_Proofs MBP6_Proofs Train5_Proofs Tester_Model Tester_Spec.
Local Open Scope R_scope.

(** ** numbers *)
Lemma rnd64_mono x y : x <= y -> rnd64 x <= rnd64 y.
Proof. apply (rnd_le 53 1024). Qed.
Lemma rnd64_Z (z : Z) : (Z.abs z < 2 ^ 53)%Z -> rnd64 (IZR z) = IZR z.
Proof. intros H. destruct (ofZ_ex z H) as [[V F] E]. rewrite <- E. apply (rnd_R 53 1024). exact V. Qed.
Lemma rnd64_geZ (z : Z) x : (Z.abs z < 2 ^ 53)%Z -> IZR z <= x -> IZR z <= rnd64 x.
Proof. intros H L. rewrite <- (rnd64_Z z H). apply rnd64_mono. exact L. Qed.
Lemma rnd64_leZ (z : Z) x : (Z.abs z < 2 ^ 53)%Z -> x <= IZR z -> rnd64 x <= IZR z.
Proof. intros H L. rewrite <- (rnd64_Z z H). apply rnd64_mono. exact L. Qed.
Lemma inr_okd lo hi x : inr lo hi x -> okd x.
Proof. intros [A _]. exact A. Qed.
Lemma lit_inr num den (lo hi : Z) : (let x := dlit num den in V64 x && fin x)%bool = true ->
  (fle (dofZ lo) (dlit num den) && fle (dlit num den) (dofZ hi))%bool = true -> (Z.abs lo < 2 ^ 53)%Z -> (Z.abs hi < 2 ^ 53)%Z -> inr (IZR lo) (IZR hi) (dlit num den).
Proof.
  intros A B L U. apply andb_true_iff in A. apply andb_true_iff in B. destruct (ofZ_ex lo L) as [Ol El]. destruct (ofZ_ex hi U) as [Ou Eu].
  assert (O : okd (dlit num den)) by exact A. split; [exact O|]. rewrite <- El, <- Eu. split; [apply (fle_d _ _ Ol O)|apply (fle_d _ _ O Ou)]; apply B.
Qed.
Lemma impact_inr e : inr 0 1 (impact e).
Proof. destruct e; (apply lit_inr; [vm_compute; reflexivity|vm_compute; reflexivity|lia|lia]). Qed.
Lemma d0 : okd (dofZ 0) /\ R (dofZ 0) = 0. Proof. apply (ofZ_ex 0). lia. Qed.
Lemma d1 : okd (dofZ 1) /\ R (dofZ 1) = 1. Proof. apply (ofZ_ex 1). lia. Qed.
Lemma factor_inr p : inr 0 1 (protection_factor p).
Proof. destruct p; [split; [apply d0|cbn [protection_factor]; rewrite (proj2 d0); lra]|..]; (apply lit_inr; [vm_compute; reflexivity|vm_compute; reflexivity|lia|lia]). Qed.
Lemma factor_mono p q : at_least_as_strong p q -> R (protection_factor q) <= R (protection_factor p).
Proof.
  intros H. destruct (factor_inr p) as [Op _], (factor_inr q) as [Oq _]. apply (fle_d _ _ Oq Op).
  destruct p, q; try (vm_compute; reflexivity); exfalso; unfold at_least_as_strong in H; cbn in H; lia.
Qed.
Ltac midl := unfold mid; lra.

Lemma clamp_base x : is_double x -> inr 50 99 (fmin (dofZ 99) (fmax (dofZ 50) x)).
Proof.
  intros Vx. destruct (ofZ_ex 50 ltac:(lia)) as [O50 E50]. destruct (ofZ_ex 99 ltac:(lia)) as [O99 E99].
  assert (H : okd (fmax (dofZ 50) x) /\ 50 <= R (fmax (dofZ 50) x) \/ x = S754_infinity false).
  { destruct (fin x) eqn:F.
    - left. destruct (fmax_d (dofZ 50) x O50 (conj Vx F)) as [O E]. split; [exact O|]. rewrite E, E50. apply Rmax_l.
    - destruct x as [s|[]| |s m e]; try discriminate F; [|right; reflexivity|].
      + left. unfold fmax. replace (flt (dofZ 50) (S754_infinity true)) with false by (vm_compute; reflexivity). rewrite E50. split; [exact O50|lra].
      + left. unfold fmax. replace (flt (dofZ 50) S754_nan) with false by (vm_compute; reflexivity). rewrite E50. split; [exact O50|lra]. }
  destruct H as [[O L]| ->].
  - destruct (fmin_d (dofZ 99) _ O99 O) as [O' E']. split; [exact O'|]. rewrite E', E99. split; [apply Rmin_glb; lra|apply Rmin_l].
  - replace (fmin (dofZ 99) (fmax (dofZ 50) (S754_infinity false))) with (dofZ 99) by (vm_compute; reflexivity). split; [exact O99|]. rewrite E99. lra.
Qed.

Section Lib.
Variables (flog fexp fpow2 : sf -> sf) (noise : N -> sf * sf).

Lemma valid_ofZ z : is_double (dofZ z).
Proof. unfold is_double, dofZ. rewrite (bn_equiv 53 1024). apply valid_binary_B2SF. Qed.
Lemma opp_double x : is_double x -> is_double (SFopp x).
Proof. destruct x as [s|s| |s m e]; exact (fun H => H). Qed.
Lemma connections_double arch : is_double (connections arch).
Proof.
  destruct arch as [|a r]; [apply valid_ofZ|]. cbn [connections].
  enough (G : forall r a acc, is_double acc -> is_double (connections_from acc a r)) by (apply G; apply valid_ofZ).
  clear. induction r as [|b r IH]; intros a acc V; [exact V|]. cbn [connections_from]. apply IH. apply add_valid; [exact V|apply valid_ofZ].
Qed.

Lemma baseline_range c d deep n : exp_ok fexp -> is_double c -> is_double d -> is_double n -> inr 50 99 (baseline fexp c d deep n).
Proof.
  intros EX Vc Vd Vn. unfold baseline. cbv zeta. apply clamp_base. apply add_valid; [|apply sub_valid; [exact Vn|apply valid_ofZ]].
  assert (V : is_double (dsub (dadd (dofZ 85) (dmul (dofZ 5) (dsub (dofZ 1) (fexp (SFopp c))))) (dmul (dofZ 10) d))).
  { apply sub_valid; [apply add_valid; [apply valid_ofZ|apply mul_valid; [apply valid_ofZ|apply sub_valid; [apply valid_ofZ|apply EX, opp_double, Vc]]]|apply mul_valid; [apply valid_ofZ|exact Vd]]. }
  destruct deep; [apply add_valid; [exact V|apply valid_ofZ]|exact V].
Qed.

Lemma shrink imp pf : inr 0 1 imp -> inr 0 1 pf ->
  inr 0 1 (dsub (dofZ 1) (dmul imp (dsub (dofZ 1) pf))) /\ R (dsub (dofZ 1) (dmul imp (dsub (dofZ 1) pf))) = rnd64 (1 - rnd64 (R imp * rnd64 (1 - R pf))).
Proof.
  intros [Oi Bi] [Op Bp]. destruct d1 as [O1 E1].
  destruct (sub_d (dofZ 1) pf O1 Op) as [Oa Ea]; [rewrite E1; midl|]. rewrite E1 in Ea.
  assert (Ba : 0 <= R (dsub (dofZ 1) pf) <= 1). { rewrite Ea. split; [apply (rnd64_geZ 0)|apply (rnd64_leZ 1)]; lia || lra. }
  destruct (mul_d imp _ Oi Oa) as [Ob Eb]; [unfold mid; nra|].
  assert (Bb : 0 <= R (dmul imp (dsub (dofZ 1) pf)) <= 1). { rewrite Eb. split; [apply (rnd64_geZ 0)|apply (rnd64_leZ 1)]; try lia; nra. }
  destruct (sub_d (dofZ 1) _ O1 Ob) as [Oc Ec]; [rewrite E1; midl|]. rewrite E1 in Ec.
  split; [split; [exact Oc|]|].
  - rewrite Ec. split; [apply (rnd64_geZ 0)|apply (rnd64_leZ 1)]; lia || lra.
  - rewrite Ec, Eb, Ea. reflexivity.
Qed.

Definition rad_raw (b imp pf n : Rdefinitions.R) : Rdefinitions.R := rnd64 (rnd64 (b * rnd64 (1 - rnd64 (imp * rnd64 (1 - pf)))) + rnd64 (n - 1)).
Lemma radiated_R base imp pf n : inr 50 99 base -> inr 0 1 imp -> inr 0 1 pf -> inr 0 2 n ->
  inr 10 (R base) (radiated base imp pf n) /\ R (radiated base imp pf n) = Rmin (R base) (Rmax 10 (rad_raw (R base) (R imp) (R pf) (R n))).
Proof.
  intros [Ob Bb] Hi Hp [On Bn]. destruct (shrink imp pf Hi Hp) as [[Os Bs] Es]. unfold radiated. cbv zeta.
  set (s := dsub (dofZ 1) (dmul imp (dsub (dofZ 1) pf))) in *. destruct d1 as [O1 E1]. destruct (ofZ_ex 10 ltac:(lia)) as [O10 E10].
  destruct (mul_d base s Ob Os) as [Om Em]; [unfold mid; nra|].
  assert (Bm : 0 <= R (dmul base s) <= 99). { rewrite Em. split; [apply (rnd64_geZ 0)|apply (rnd64_leZ 99)]; try lia; nra. }
  destruct (sub_d n (dofZ 1) On O1) as [Od Ed]; [rewrite E1; midl|]. rewrite E1 in Ed.
  assert (Bd : -1 <= R (dsub n (dofZ 1)) <= 1). { rewrite Ed. split; [apply (rnd64_geZ (-1))|apply (rnd64_leZ 1)]; lia || lra. }
  destruct (add_d _ _ Om Od) as [Oa Ea]; [midl|].
  destruct (fmax_d (dofZ 10) _ O10 Oa) as [Ox Ex]. destruct (fmin_d base _ Ob Ox) as [Or Er]. rewrite E10 in Ex.
  assert (E : R (fmin base (fmax (dofZ 10) (dadd (dmul base s) (dsub n (dofZ 1))))) = Rmin (R base) (Rmax 10 (rad_raw (R base) (R imp) (R pf) (R n)))).
  { rewrite Er, Ex, Ea, Em, Ed, Es. reflexivity. }
  split; [|exact E]. split; [exact Or|]. rewrite E. split; [|apply Rmin_l]. apply Rmin_glb; [lra|apply Rmax_l].
Qed.
Lemma rad_raw_mono b i1 i2 p1 p2 n1 n2 : 0 <= b -> 0 <= i2 -> i2 <= i1 -> p1 <= p2 -> p2 <= 1 -> n1 <= n2 -> rad_raw b i1 p1 n1 <= rad_raw b i2 p2 n2.
Proof.
  intros Hb Hi0 Hi Hp Hp1 Hn. unfold rad_raw. apply rnd64_mono. apply Rplus_le_compat; [|apply rnd64_mono; lra].
  apply rnd64_mono. apply Rmult_le_compat_l; [exact Hb|]. apply rnd64_mono. apply Rplus_le_compat_l. apply Ropp_le_contravar. apply rnd64_mono.
  apply Rmult_le_compat; [exact Hi0|apply (rnd64_geZ 0); lia || lra|exact Hi|apply rnd64_mono; lra].
Qed.
Lemma radiated_mono base i1 i2 p1 p2 n1 n2 : inr 50 99 base -> inr 0 1 i1 -> inr 0 1 i2 -> inr 0 1 p1 -> inr 0 1 p2 -> inr 0 2 n1 -> inr 0 2 n2 ->
  R i2 <= R i1 -> R p1 <= R p2 -> R n1 <= R n2 -> R (radiated base i1 p1 n1) <= R (radiated base i2 p2 n2).
Proof.
  intros Hb H1 H2 H3 H4 H5 H6 Li Lp Ln. rewrite (proj2 (radiated_R _ _ _ _ Hb H1 H3 H5)), (proj2 (radiated_R _ _ _ _ Hb H2 H4 H6)).
  apply Rle_min_compat_l. apply Rle_max_compat_l. apply rad_raw_mono; try assumption; destruct Hb, H2, H4; lra.
Qed.
Lemma pres_range base rad : inr 50 99 base -> inr 10 (R base) rad -> inr 10 100 (dmul (ddiv rad base) (dofZ 100)).
Proof.
  intros [Ob Bb] [Or Br]. destruct (ofZ_ex 100 ltac:(lia)) as [O100 E100].
  assert (Q : / 9.9 <= R rad / R base <= 1).
  { split.
    - apply Rle_trans with (10 / 99); [lra|]. unfold Rdiv. apply Rmult_le_compat; try lra. apply Rinv_le_contravar; lra.
    - apply (Rmult_le_reg_r (R base)); [lra|]. unfold Rdiv. rewrite Rmult_assoc, Rinv_l by lra. lra. }
  destruct (div_d rad base Or Ob) as [Od Ed]; [lra|midl|].
  assert (Ld : / 10 * (1 + / 1000) <= R (ddiv rad base)).
  { rewrite Ed. apply Rle_trans with (R rad / R base * (1 - / 9007199254740992)); [nra|]. apply rnd64_rel. apply small_normal. lra. }
  assert (Ud : R (ddiv rad base) <= 1). { rewrite Ed. apply (rnd64_leZ 1); [lia|lra]. }
  destruct (mul_d _ (dofZ 100) Od O100) as [Om Em]; [rewrite E100; midl|]. rewrite E100 in Em. split; [exact Om|]. rewrite Em.
  split; [apply (rnd64_geZ 10)|apply (rnd64_leZ 100)]; lia || lra.
Qed.

(** ** one test *)
Lemma test_inv arch drop residual p e trial r : test_with flog fexp noise arch drop residual p e trial = Ret r ->
  exists d1000 total det corr, to_size (dmul drop (dofZ 1000)) = Ret d1000 /\
   let n := noise (seed_of arch d1000 residual p e trial mod 2 ^ 32) in
   let complexity := ddiv (flog (connections arch)) (dofZ 10) in
   let base := baseline fexp complexity drop (residual && Nat.ltb 3 (length arch)) (fst n) in
   let rad := radiated base (impact e) (protection_factor p) (snd n) in
   to_size (dmul (dmul complexity (dofZ 100)) (impact e)) = Ret total /\
   to_size (dmul (dofZ (Z.of_N total)) (dadd (dlit 2 10) (dmul (dlit 8 10) (protection_factor p)))) = Ret det /\
   to_size (dmul (dofZ (Z.of_N det)) (protection_factor p)) = Ret corr /\
   r = mkRes arch drop residual p e base rad (dmul (ddiv rad base) (dofZ 100)) (dmul (dadd (dofZ 50) (dmul complexity (dofZ 100))) (time_factor p))
     det corr ((det + two64 - corr) mod two64)%N (S754_zero false) (S754_zero false) (S754_zero false) 1.
Proof.
  unfold test_with. intros H. apply obind_ret in H. destruct H as (d & D & H). cbv zeta in H.
  apply obind_ret in H. destruct H as (t & T & H). apply obind_ret in H. destruct H as (de & DE & H). apply obind_ret in H. destruct H as (c & C & H).
  injection H as <-. exists d, t, de, c. cbv zeta. repeat split; assumption.
Qed.
Lemma test_about arch drop residual p e trial r : test_with flog fexp noise arch drop residual p e trial = Ret r -> about r arch drop residual p e.
Proof. intros H. destruct (test_inv _ _ _ _ _ _ _ H) as (d & t & de & c & _ & _ & _ & _ & ->). repeat split. Qed.
Lemma test_sane arch drop residual p e trial r : log_ok flog -> exp_ok fexp -> noise_ok noise -> is_double drop ->
  test_with flog fexp noise arch drop residual p e trial = Ret r -> sane r.
Proof.
  intros [LV _] EX NO VD H. destruct (test_inv _ _ _ _ _ _ _ H) as (d & t & de & c & _ & _ & _ & _ & ->). unfold sane. cbn [r_base r_rad r_pres].
  set (n := noise _). assert (Hn : inr 0 2 (fst n) /\ inr 0 2 (snd n)) by apply NO. destruct Hn as [N1 N2].
  set (b := baseline _ _ _ _ _).
  assert (HB : inr 50 99 b).
  { apply baseline_range; try assumption; [|apply N1]. apply div_valid; [apply LV, connections_double|apply valid_ofZ]. }
  pose proof (radiated_R b _ _ _ HB (impact_inr e) (factor_inr p) N2) as [HR _].
  split; [exact HB|]. split; [exact HR|]. apply pres_range; assumption.
Qed.
End Lib.
