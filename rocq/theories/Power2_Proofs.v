(** Levels, power and effectiveness in binary64. *)
From Coq Require Import List NArith ZArith Bool SpecFloat Reals Permutation Lia Lra Sorted.
Import ListNotations.
From Flocq Require Import Core Relative Plus_error.
From Verif Require Import Outcome Words Arith Floats FloatsR HealthFloat BitsFloat_Proofs RMA3_Proofs Power_Model Power_Spec Power_Proofs.
Local Open Scope R_scope.

Notation e53 := (/ 9007199254740992).
Lemma zero_ok : okd (dofZ 0) /\ R (dofZ 0) = 0.
Proof. destruct (ofZ_ex 0 ltac:(reflexivity)) as [A B]. split; [exact A|exact B]. Qed.
Lemma fmt_of x : okd x -> generic_format radix2 (FLT_exp (-1074) 53) (R x).
Proof. intros [V F]. rewrite <- (rnd_R 53 1024 x V). unfold rnd. apply generic_format_round; [apply (FLT_exp_valid (-1074) 53)|apply valid_rnd_N]. Qed.
Lemma uro53 : u_ro radix2 53 = e53.
Proof. unfold u_ro. change (bpow radix2 (- (53) + 1)) with (/ 4503599627370496). lra. Qed.
Lemma plus_err x y : generic_format radix2 (FLT_exp (-1074) 53) x -> generic_format radix2 (FLT_exp (-1074) 53) y -> 
  0 <= x + y -> (x + y) * (1 - e53) <= rnd64 (x + y) <= (x + y) * (1 + e53).
Proof.
  intros Fx Fy P. destruct (FLT_plus_error_N_ex radix2 (-1074) 53 (fun z => negb (Z.even z)) x y Fx Fy) as (d & Hd & E).
  assert (Hd' : Rabs d <= e53).
  { rewrite uro53 in Hd. apply Rle_trans with (1 := Hd). unfold Rdiv. rewrite <- (Rmult_1_r e53) at 3. apply Rmult_le_compat_l; [lra|].
    rewrite <- Rinv_1. apply Rinv_le; lra. }
  change (round radix2 (FLT_exp (-1074) 53) (Znearest (fun z => negb (Z.even z))) (x + y)) with (rnd64 (x + y)) in E.
  rewrite E. apply Rabs_le_inv in Hd'. split; apply Rmult_le_compat_l; lra.
Qed.
Lemma add_err x y : okd x -> okd y -> 0 <= R x + R y -> (R x + R y) * (1 - e53) <= rnd64 (R x + R y) <= (R x + R y) * (1 + e53).
Proof. intros Ox Oy. apply plus_err; apply fmt_of; assumption. Qed.
Lemma sub_err x y : okd x -> okd y -> 0 <= R x - R y -> (R x - R y) * (1 - e53) <= rnd64 (R x - R y) <= (R x - R y) * (1 + e53).
Proof. intros Ox Oy. apply plus_err; [apply fmt_of; assumption|]. apply generic_format_opp. apply fmt_of; assumption. Qed.
Lemma rnd_z z : (Z.abs z < 2 ^ 53)%Z -> rnd64 (IZR z) = IZR z.
Proof. apply rnd_int. Qed.
Lemma rnd_mono x y : x <= y -> rnd64 x <= rnd64 y.
Proof. apply (rnd_le 53 1024). Qed.
Lemma rnd_pos x : 0 <= x -> 0 <= rnd64 x.
Proof. intros H. rewrite <- (rnd_z 0) by reflexivity. apply rnd_mono. exact H. Qed.
Lemma rnd_le1 x : x <= 1 -> rnd64 x <= 1.
Proof. intros H. rewrite <- (rnd_z 1) by reflexivity. apply rnd_mono. exact H. Qed.
Lemma mid1 x : 0 <= x <= 2 ^ 60 -> mid x.
Proof. unfold mid. intros. change (2 ^ 60) with (2 * (2 * (2 ^ 58))) in *. simpl pow in *. lra. Qed.
Lemma midz x : -4503599627370496 <= x <= 9007199254740992 -> mid x.
Proof. unfold mid. lra. Qed.

(** ** One component *)
Definition level_ok (c : comp) : Prop := sensible c /\ okd (ccur c) /\ R (cmin c) <= R (ccur c) <= R (cmax c).
Ltac sens H := destruct H as (Om & OM & Op & OP & Oc & (Hm0 & HmM & HM1) & (Hp0 & HpP & HP1) & (Hc0 & Hc1)).
Lemma gap_R c : sensible c -> okd (dsub (cmax c) (cmin c)) /\ R (dsub (cmax c) (cmin c)) = rnd64 (R (cmax c) - R (cmin c)) /\
  0 < R (dsub (cmax c) (cmin c)) <= 1.
Proof.
  intros S. sens S. destruct (sub_d (cmax c) (cmin c) OM Om) as [O1 R1]; [apply midz; lra|]. split; [exact O1|]. split; [exact R1|].
  rewrite R1. pose proof (sub_err _ _ OM Om ltac:(lra)) as E. split; [|apply rnd_le1; lra].
  apply Rlt_le_trans with (2 := proj1 E). apply Rmult_lt_0_compat; lra.
Qed.
Definition ratio_of (c : comp) : sf := ddiv (dsub (ccur c) (cmin c)) (dsub (cmax c) (cmin c)).
Lemma ratio_R c : level_ok c -> okd (ratio_of c) /\ 0 <= R (ratio_of c) <= 1 /\
  R (ratio_of c) = rnd64 (rnd64 (R (ccur c) - R (cmin c)) / R (dsub (cmax c) (cmin c))).
Proof.
  intros (S & Ocu & Hcu). destruct (gap_R c S) as (O1 & R1 & H1). sens S.
  destruct (sub_d (ccur c) (cmin c) Ocu Om) as [O2 R2]; [apply midz; lra|].
  assert (P2 : 0 <= R (dsub (ccur c) (cmin c))) by (rewrite R2; apply rnd_pos; lra).
  assert (L2 : R (dsub (ccur c) (cmin c)) <= R (dsub (cmax c) (cmin c))) by (rewrite R1, R2; apply rnd_mono; lra).
  assert (Q : 0 <= R (dsub (ccur c) (cmin c)) / R (dsub (cmax c) (cmin c)) <= 1).
  { split; [apply Rmult_le_pos; [exact P2|left; apply Rinv_0_lt_compat; lra]|]. apply Rmult_le_reg_r with (R (dsub (cmax c) (cmin c))); [lra|].
    unfold Rdiv. rewrite Rmult_assoc, Rinv_l by lra. lra. }
  destruct (div_d (dsub (ccur c) (cmin c)) (dsub (cmax c) (cmin c)) O2 O1) as [O3 R3]; [lra|apply midz; lra|].
  split; [exact O3|]. fold (ratio_of c) in R3. rewrite R3. split; [split; [apply rnd_pos; lra|apply rnd_le1; lra]|]. rewrite R2. reflexivity.
Qed.
Lemma dpow_R c : sensible c -> okd (dsub (cpmax c) (cpmin c)) /\ R (dsub (cpmax c) (cpmin c)) = rnd64 (R (cpmax c) - R (cpmin c)) /\
  0 <= R (dsub (cpmax c) (cpmin c)) <= 1048576.
Proof.
  intros S. sens S. destruct (sub_d (cpmax c) (cpmin c) OP Op) as [O1 R1]; [apply midz; lra|]. split; [exact O1|]. split; [exact R1|].
  rewrite R1. split; [apply rnd_pos; lra|]. rewrite <- (rnd_z 1048576) by reflexivity. apply rnd_mono. lra.
Qed.
Lemma power_R c : level_ok c -> okd (power c) /\ R (cpmin c) <= R (power c) <= 2097152 /\
  R (power c) = rnd64 (R (cpmin c) + rnd64 (R (ratio_of c) * R (dsub (cpmax c) (cpmin c)))).
Proof.
  intros L. pose proof L as (S & Ocu & Hcu). destruct (ratio_R c L) as (O1 & H1 & _). destruct (dpow_R c S) as (O2 & _ & H2).
  sens S. assert (Q : 0 <= R (ratio_of c) * R (dsub (cpmax c) (cpmin c)) <= 1048576) by nra.
  destruct (mul_d (ratio_of c) (dsub (cpmax c) (cpmin c)) O1 O2) as [O3 R3]; [apply midz; lra|].
  assert (Q3 : 0 <= R (dmul (ratio_of c) (dsub (cpmax c) (cpmin c))) <= 1048576).
  { rewrite R3. split; [apply rnd_pos; lra|]. rewrite <- (rnd_z 1048576) by reflexivity. apply rnd_mono. lra. }
  destruct (add_d (cpmin c) _ Op O3) as [O4 R4]; [apply midz; lra|].
  change (dadd (cpmin c) (dmul (ratio_of c) (dsub (cpmax c) (cpmin c)))) with (power c) in *.
  split; [exact O4|]. rewrite R4. split; [|rewrite R3; reflexivity]. split.
  - apply rnd64_ge; [exact Op|]. lra.
  - rewrite <- (rnd_z 2097152) by reflexivity. apply rnd_mono. lra.
Qed.
Lemma sensible_level c x : sensible c -> sensible (with_level c x).
Proof. intros H. exact H. Qed.
Lemma power_mono c x y : level_ok (with_level c x) -> level_ok (with_level c y) -> R x <= R y ->
  R (ratio_of (with_level c x)) <= R (ratio_of (with_level c y)) /\ R (power (with_level c x)) <= R (power (with_level c y)).
Proof.
  intros Lx Ly H. destruct (ratio_R _ Lx) as (_ & Px & Rx). destruct (ratio_R _ Ly) as (_ & Py & Ry).
  destruct (power_R _ Lx) as (_ & _ & Wx). destruct (power_R _ Ly) as (_ & _ & Wy).
  destruct (gap_R c (proj1 Lx)) as (_ & _ & G). destruct (dpow_R c (proj1 Lx)) as (_ & _ & D).
  assert (M : R (ratio_of (with_level c x)) <= R (ratio_of (with_level c y))).
  { rewrite Rx, Ry. cbn [with_level ccur cmin cmax]. apply rnd_mono. apply Rmult_le_compat_r; [left; apply Rinv_0_lt_compat; lra|]. apply rnd_mono. lra. }
  split; [exact M|]. rewrite Wx, Wy. cbn [with_level cpmin cpmax]. apply rnd_mono. apply Rplus_le_compat_l. apply rnd_mono. 
  apply Rmult_le_compat_r; [lra|exact M].
Qed.
Lemma min_level_ok c : sensible c -> level_ok (with_level c (cmin c)).
Proof. intros S. split; [exact S|]. cbn [with_level ccur cmin cmax]. sens S. split; [exact Om|lra]. Qed.
Lemma power_min c : sensible c -> okd (power (with_level c (cmin c))) /\ R (power (with_level c (cmin c))) = R (cpmin c).
Proof.
  intros S. pose proof (min_level_ok c S) as L. destruct (power_R _ L) as (O & _ & W). split; [exact O|]. rewrite W.
  destruct (ratio_R _ L) as (_ & _ & Q). rewrite Q. cbn [with_level ccur cmin cmax cpmin cpmax]. rewrite Rminus_eq_0.
  rewrite (rnd_z 0) by reflexivity. unfold Rdiv. rewrite Rmult_0_l, (rnd_z 0) by reflexivity. rewrite Rmult_0_l, (rnd_z 0) by reflexivity.
  rewrite Rplus_0_r. apply (rnd_R 53 1024). sens S. apply Op.
Qed.
Lemma step_R c : sensible c -> okd (step_size c) /\ R (step_size c) = rnd64 (R (dsub (cmax c) (cmin c)) / 100) /\ 0 <= R (step_size c) <= 1.
Proof.
  intros S. destruct (gap_R c S) as (O1 & R1 & H1). destruct (ofZ_ex 100 ltac:(reflexivity)) as [O2 R2].
  destruct (div_d (dsub (cmax c) (cmin c)) (dofZ 100) O1 O2) as [O3 R3]; [rewrite R2; lra|rewrite R2; apply midz; lra|].
  fold (step_size c) in O3, R3. rewrite R2 in R3. split; [exact O3|]. split; [exact R3|]. rewrite R3. split; [apply rnd_pos; lra|apply rnd_le1; lra].
Qed.
Lemma next_R c : level_ok c -> okd (next_level_of c) /\ R (next_level_of c) = Rmin (rnd64 (R (ccur c) + R (step_size c))) (R (cmax c)) /\
  R (ccur c) <= R (next_level_of c) <= R (cmax c).
Proof.
  intros (S & Ocu & Hcu). destruct (step_R c S) as (O1 & _ & H1). sens S.
  destruct (add_d (ccur c) (step_size c) Ocu O1) as [O2 R2]; [apply midz; lra|].
  destruct (fmin_d (dadd (ccur c) (step_size c)) (cmax c) O2 OM) as [O3 R3]. fold (next_level_of c) in O3, R3.
  split; [exact O3|]. rewrite R3, R2. split; [reflexivity|]. split; [|apply Rmin_r].
  apply Rmin_glb; [|lra]. apply rnd64_ge; [exact Ocu|lra].
Qed.
Lemma next_ok c : level_ok c -> level_ok (with_level c (next_level_of c)).
Proof.
  intros L. destruct (next_R c L) as (O & _ & H). destruct L as (S & Ocu & Hcu). split; [exact S|]. cbn [with_level ccur cmin cmax]. split; [exact O|lra].
Qed.
Lemma additional_R c : level_ok c -> okd (additional c) /\ R (additional c) = rnd64 (R (power (with_level c (next_level_of c))) - R (power c)) /\
  0 <= R (power (with_level c (next_level_of c))) - R (power c) /\ 0 <= R (additional c) <= 2097152.
Proof.
  intros L. pose proof (next_ok c L) as L'. destruct (power_R _ L) as (O1 & H1 & _). destruct (power_R _ L') as (O2 & H2 & _).
  destruct (next_R c L) as (_ & _ & N).
  assert (M : R (power c) <= R (power (with_level c (next_level_of c)))).
  { rewrite <- (with_level_id c) at 1. apply power_mono; [rewrite with_level_id; exact L|exact L'|lra]. }
  assert (S : 0 <= R (cpmin c)) by (apply L). cbn [with_level cpmin] in H2.
  destruct (sub_d _ _ O2 O1) as [O3 R3]; [apply midz; lra|]. fold (additional c) in O3, R3. split; [exact O3|]. split; [exact R3|]. split; [lra|].
  rewrite R3. split; [apply rnd_pos; lra|]. rewrite <- (rnd_z 2097152) by reflexivity. apply rnd_mono. lra.
Qed.

(** ** Sums *)
Definition rsum (f : comp -> Rdefinitions.R) (l : list (Z * comp)) : Rdefinitions.R := fold_right (fun x u => f (snd x) + u) 0 l.
Lemma rsum_perm f l l' : Permutation l l' -> rsum f l = rsum f l'.
Proof. induction 1; cbn [rsum fold_right] in *; try lra. fold (rsum f l) (rsum f l') in *. lra. Qed.
Lemma rsum_ext f g l : Forall (fun x => f (snd x) = g (snd x)) l -> rsum f l = rsum g l.
Proof. induction 1 as [|x r H F IH]; [reflexivity|]. unfold rsum in *. cbn [fold_right]. rewrite H, IH. reflexivity. Qed.
Lemma rsum_nonneg f l : Forall (fun x => 0 <= f (snd x)) l -> 0 <= rsum f l.
Proof. induction 1 as [|x r H F IH]; cbn [rsum fold_right]; [lra|]. fold (rsum f r). lra. Qed.
Definition pR (c : comp) := R (power c).
Notation all_ok l := (Forall (fun x : Z * comp => level_ok (snd x)) l).
Lemma sum_step T k u x s : 0 <= T -> 0 <= k -> 2 * k * e53 <= 1 -> 0 <= x -> T * (1 - k * e53) <= u <= T * (1 + 2 * k * e53) ->
  (u + x) * (1 - e53) <= s <= (u + x) * (1 + e53) -> (T + x) * (1 - (k + 1) * e53) <= s <= (T + x) * (1 + 2 * (k + 1) * e53).
Proof.
  set (e := e53). assert (0 < e < 1 / 10) by (unfold e; lra). clearbody e. intros HT Hk Hb Hx Hu Hs.
  assert (A : 0 <= k * e) by nra. assert (B : 0 <= T * (k * e)) by nra. assert (C : 0 <= x * (k * e)) by nra. split.
  - assert ((T * (1 - k * e) + x) * (1 - e) <= (u + x) * (1 - e)) by nra.
    assert (0 <= T * (k * e) * e) by nra. nra.
  - assert ((u + x) * (1 + e) <= (T * (1 + 2 * k * e) + x) * (1 + e)) by nra.
    assert (0 <= (T * e) * (1 - 2 * k * e)) by (apply Rmult_le_pos; nra). assert (0 <= x * e) by nra. nra.
Qed.
Lemma sum_power_acc l : forall u T k, okd u -> 0 <= T -> R u <= IZR (Z.of_nat k * 2097152) -> (Z.of_nat (k + length l) <= 2 ^ 31)%Z -> 0 <= R u ->
  T * (1 - INR k * e53) <= R u <= T * (1 + 2 * INR k * e53) -> all_ok l ->
  let r := fold_left (fun u x => dadd u (power (snd x))) l u in let n := INR (k + length l) in
  okd r /\ 0 <= R r <= 4503599627370496 /\ (T + rsum pR l) * (1 - n * e53) <= R r <= (T + rsum pR l) * (1 + 2 * n * e53).
Proof.
  induction l as [|[i c] q IH]; intros u T k Ou HT Hb Hk H0 Hu F; cbn [fold_left length rsum fold_right].
  - cbv zeta. rewrite Nat.add_0_r, Rplus_0_r in *. split; [exact Ou|]. split; [|exact Hu]. split; [lra|].
    apply Rle_trans with (1 := Hb). change 4503599627370496 with (IZR 4503599627370496). apply IZR_le. lia.
  - inversion F as [|? ? L F']; subst. cbn [snd] in *. destruct (power_R c L) as (Op & Hp & _).
    assert (P0 : 0 <= R (cpmin c)) by (apply L). cbn [length] in Hk.
    assert (Kb : IZR (Z.of_nat k * 2097152) <= 4503599627370496) by (change 4503599627370496 with (IZR 4503599627370496); apply IZR_le; lia).
    destruct (add_d u (power c) Ou Op) as [Oa Ra]; [apply midz; lra|].
    pose proof (add_err u (power c) Ou Op ltac:(lra)) as Er.
    replace (k + S (length q))%nat with (S k + length q)%nat by lia. fold (rsum pR q). rewrite <- Rplus_assoc.
    assert (Kr : INR k <= 2147483648) by (rewrite INR_IZR_INZ; apply IZR_le; lia). pose proof (pos_INR k).
    apply IH; [exact Oa|unfold pR; lra| | lia | | |exact F'].
    + rewrite Ra. replace (Z.of_nat (S k) * 2097152)%Z with (Z.of_nat k * 2097152 + 2097152)%Z by lia.
      rewrite <- (rnd_z (Z.of_nat k * 2097152 + 2097152)) by lia. apply rnd_mono. rewrite plus_IZR. lra.
    + rewrite Ra. apply rnd_pos. lra.
    + rewrite Ra, S_INR. apply (sum_step T (INR k) (R u)); try assumption; try lra. unfold pR; lra.
Qed.
Lemma sum_power_R l : (Z.of_nat (length l) <= 2 ^ 31)%Z -> all_ok l ->
  okd (sum_power l) /\ 0 <= R (sum_power l) <= 4503599627370496 /\
  rsum pR l * (1 - INR (length l) * e53) <= R (sum_power l) <= rsum pR l * (1 + 2 * INR (length l) * e53).
Proof.
  intros Hn F. destruct zero_ok as [O Z0]. pose proof (sum_power_acc l (dofZ 0) 0 0 O) as A. cbn [plus] in A. rewrite Rplus_0_l in A.
  apply A; rewrite ?Z0; try assumption; try lra; try (rewrite !Rmult_0_l; lra).
  change (Z.of_nat 0 * 2097152)%Z with 0%Z. lra.
Qed.

Lemma inflate d a : 0 <= d -> d * (1 - e53) <= a -> d <= a + 2 * e53 * a.
Proof.
  assert (He : 0 < e53 < / 10) by lra. generalize dependent e53. intros e He H0 H. assert (d * (1 - e) * (1 + 2 * e) <= a * (1 + 2 * e)) by (apply Rmult_le_compat_r; lra).
  assert (0 <= d * (e * (1 - 2 * e))) by (apply Rmult_le_pos; [exact H0|]; apply Rmult_le_pos; lra). nra.
Qed.
(** ** The loop *)
Lemma consider_cases r i c b : snd (consider r i c b) = snd b \/
  (snd (consider r i c b) = Some i /\ fge (ccur c) (cmax c) = false /\ fgt (additional c) r = false).
Proof.
  unfold consider. destruct (fge (ccur c) (cmax c)); [auto|]. destruct (fgt (additional c) r); [auto|]. destruct (fgt _ _); auto.
Qed.
Lemma scan_cases r l : forall i b k, snd (scan_best r i l b) = Some k -> snd b = Some k \/
  exists id c, nth_error l (k - i) = Some (id, c) /\ (i <= k)%nat /\ fge (ccur c) (cmax c) = false /\ fgt (additional c) r = false.
Proof.
  induction l as [|[id c] q IH]; intros i b k H; cbn [scan_best] in H; [auto|].
  apply IH in H. destruct H as [H|(id' & c' & H & Hk & A & B)].
  - destruct (consider_cases r i c b) as [E|(E & A & B)].
    + rewrite E in H. auto.
    + rewrite E in H. injection H as <-. right. exists id, c. rewrite Nat.sub_diag. cbn. auto.
  - right. exists id', c'. replace (k - i)%nat with (S (k - S i)) by lia. cbn [nth_error]. split; [exact H|]. split; [lia|auto].
Qed.
Lemma upd_ok i : forall l, all_ok l -> all_ok (upd i l).
Proof.
  induction i as [|i IH]; intros [|[k c] q] F; cbn [upd]; auto; inversion F as [|? ? L F']; subst; constructor; auto.
  cbn [snd] in *. apply next_ok. exact L.
Qed.
Lemma upd_length i : forall l, length (upd i l) = length l.
Proof. induction i as [|i IH]; intros [|[k c] q]; cbn [upd length]; auto. Qed.
Lemma upd_sum i : forall l id c, nth_error l i = Some (id, c) ->
  rsum pR (upd i l) = rsum pR l + (pR (with_level c (next_level_of c)) - pR c).
Proof.
  induction i as [|i IH]; intros [|[k d] q] id c H; cbn [nth_error] in H; try discriminate; cbn [upd rsum fold_right snd].
  - injection H as <- <-. fold (rsum pR q). lra.
  - fold (rsum pR (upd i q)) (rsum pR q). rewrite (IH q id c H). lra.
Qed.
Lemma all_nth l i id c : all_ok l -> nth_error l i = Some (id, c) -> level_ok c.
Proof. intros F H. apply nth_error_In in H. rewrite Forall_forall in F. apply (F _ H). Qed.
Lemma loop_R n : forall r l B T, okd r -> 0 <= R r <= B -> B <= 4503599627370496 -> all_ok l -> rsum pR l + R r <= T ->
  let res := upgrade_loop n r l in
  all_ok (snd res) /\ length (snd res) = length l /\ okd (fst res) /\ 0 <= R (fst res) <= B /\ rsum pR (snd res) + R (fst res) <= T + INR n * (3 * e53 * B).
Proof.
  induction n as [|n IH]; intros r l B T Or Hr HB F HT; cbv zeta; cbn [upgrade_loop].
  - cbn [fst snd INR]. rewrite Rmult_0_l, Rplus_0_r. auto.
  - pose proof (pos_INR n) as Pn. rewrite S_INR.
    assert (P : 0 <= INR n * (3 * e53 * B)) by (apply Rmult_le_pos; [exact Pn|]; apply Rmult_le_pos; lra).
    assert (Stop : all_ok l /\ length l = length l /\ okd r /\ 0 <= R r <= B /\ rsum pR l + R r <= T + (INR n + 1) * (3 * e53 * B)).
    { split; [exact F|]. split; [reflexivity|]. split; [exact Or|]. split; [exact Hr|]. nra. }
    destruct (fgt r (dofZ 0)); [|exact Stop].
    destruct (snd (scan_best r 0 l (dofZ 0, None))) as [i|] eqn:Es; [|exact Stop].
    destruct (nth_error l i) as [[id c]|] eqn:En; [|exact Stop].
    apply scan_cases in Es. destruct Es as [Es|(id' & c' & E & _ & _ & A)]; [discriminate|]. rewrite Nat.sub_0_r, En in E. injection E as <- <-.
    pose proof (all_nth _ _ _ _ F En) as L. destruct (additional_R c L) as (Oa & Ra & Da & Ha).
    unfold fgt in A. apply flt_dF in A; [|assumption..].
    destruct (sub_d r (additional c) Or Oa) as [Or' Rr']; [apply midz; lra|].
    assert (Hr' : 0 <= R (dsub r (additional c)) <= R r).
    { rewrite Rr'. split; [apply rnd_pos; lra|]. apply rnd64_le; [exact Or|lra]. }
    pose proof (sub_err r (additional c) Or Oa ltac:(lra)) as E1.
    destruct (power_R c L) as (Oc & _ & _). destruct (power_R _ (next_ok c L)) as (Oc' & _ & _).
    pose proof (sub_err _ _ Oc' Oc Da) as E2. rewrite <- Ra in E2. rewrite <- Rr' in E1.
    specialize (IH (dsub r (additional c)) (upd i l) B (T + 3 * e53 * B) Or'). cbv zeta in IH.
    destruct IH as (I1 & I2 & I3 & I4 & I5); [lra|exact HB|apply upd_ok; exact F| |].
    + rewrite (upd_sum _ _ _ _ En). change (pR (with_level c (next_level_of c)) - pR c) with (R (power (with_level c (next_level_of c))) - R (power c)). set (d := R (power (with_level c (next_level_of c))) - R (power c)) in *.
      set (a := R (additional c)) in *. set (r' := R (dsub r (additional c))) in *. set (rr := R r) in *. clearbody d a r' rr.
      assert (d <= a + 2 * e53 * a) by (clear -E2 Da; apply inflate; [exact Da|apply E2]). clear -H E1 HT Hr A Ha. lra.
    + split; [exact I1|]. split; [rewrite I2; apply upd_length|]. split; [exact I3|]. split; [exact I4|]. lra.
Qed.

(** ** The whole rebalancing *)
Section O.
Variable ord : list sf -> list nat.
Hypothesis ordP : forall cs, Permutation (ord cs) (seq 0 (length cs)).
Notation all_sens l := (Forall (fun x : Z * comp => sensible (snd x)) l).
Definition minR (c : comp) := R (cpmin c).
Lemma at_min_ok l : all_sens l -> all_ok (at_min l) /\ rsum pR (at_min l) = rsum minR l.
Proof.
  induction 1 as [|[i c] q H F [IH1 IH2]]; [split; [constructor|reflexivity]|]. cbn [at_min map fst snd] in *. fold (at_min q). split.
  - constructor; [cbn [snd]; apply min_level_ok; exact H|exact IH1].
  - cbn [rsum fold_right snd]. fold (rsum pR (at_min q)) (rsum minR q). rewrite IH2. unfold pR, minR. rewrite (proj2 (power_min c H)). reflexivity.
Qed.
Lemma sorted_sens l : all_sens l -> all_sens (sorted_comps ord l).
Proof. intros F. rewrite Forall_forall in *. intros x Hx. apply F. apply (Permutation_in (l := sorted_comps ord l)); [apply sorted_perm; exact ordP|exact Hx]. Qed.
Notation start l := (at_min (sorted_comps ord l)).
Lemma start_facts l : (Z.of_nat (length l) <= 2 ^ 31)%Z -> all_sens l -> all_ok (start l) /\ length (start l) = length l /\ rsum pR (start l) = rsum minR l /\
  okd (sum_power (start l)) /\ 0 <= R (sum_power (start l)) <= 4503599627370496 /\
  rsum minR l * (1 - INR (length l) * e53) <= R (sum_power (start l)) <= rsum minR l * (1 + 2 * INR (length l) * e53) /\ 0 <= rsum minR l.
Proof.
  intros Hn F. destruct (at_min_ok _ (sorted_sens l F)) as [A B]. pose proof (sorted_perm ord ordP l) as P.
  assert (Ln : length (start l) = length l) by (unfold at_min; rewrite map_length; apply Permutation_length; exact P).
  rewrite (rsum_perm minR _ _ P) in B. pose proof (sum_power_R (start l)) as S. rewrite Ln, B in S. destruct (S Hn A) as (S1 & S2 & S3).
  split; [exact A|]. split; [exact Ln|]. split; [exact B|]. split; [exact S1|]. split; [exact S2|]. split; [exact S3|].
  apply rsum_nonneg. eapply Forall_impl; [|exact F]. cbn. intros x Hx. apply Hx.
Qed.
Lemma INR_small (l : list (Z * comp)) : (Z.of_nat (length l) <= 2 ^ 31)%Z -> 0 <= INR (length l) <= 2147483648.
Proof. intros H. split; [apply pos_INR|]. rewrite INR_IZR_INZ. apply IZR_le. lia. Qed.
Theorem rebalanced_normal b l : (Z.of_nat (length l) <= 2 ^ 31)%Z -> all_sens l -> okd b -> 0 <= R b <= 4503599627370496 ->
  fgt (sum_power (start l)) b = false ->
  all_ok (rebalanced ord b l) /\ length (rebalanced ord b l) = length l /\
  rsum pR (rebalanced ord b l) <= R b * (1 + (2 * INR (length l) + 301) * e53).
Proof.
  intros Hn F Ob Hb E. destruct (start_facts l Hn F) as (A & Ln & S0 & Om & Hm & Em & P0). pose proof (INR_small l Hn) as Hi.
  unfold rebalanced. rewrite E. unfold fgt in E. apply flt_dF in E; [|assumption..].
  destruct (sub_d b (sum_power (start l)) Ob Om) as [Or Rr]; [apply midz; lra|].
  pose proof (sub_err b _ Ob Om ltac:(lra)) as Er.
  assert (Hr : 0 <= R (dsub b (sum_power (start l))) <= R b) by (rewrite Rr; split; [apply rnd_pos; lra|apply rnd64_le; [exact Ob|lra]]).
  rewrite <- Rr in Er.
  destruct (loop_R 100 (dsub b (sum_power (start l))) (start l) (R b) (R b * (1 + (2 * INR (length l) + 1) * e53)) Or Hr (proj2 Hb) A) as (L1 & L2 & _ & L4 & L5).
  - rewrite S0. set (n := INR (length l)) in *. set (m := R (sum_power (start l))) in *. set (S := rsum minR l) in *. set (r := R (dsub b (sum_power (start l)))) in *.
    set (B := R b) in *. clearbody n m S r B. clear -Em Er E Hb Hi Hm P0. 
    assert (S <= m * (1 + 2 * n * e53)).
    { set (x := n * e53) in *. assert (0 <= x <= / 1000) by (unfold x; lra). replace (2 * n * e53) with (2 * x) by (unfold x; ring). clearbody x.
      assert (m * (1 + 2 * x) >= S * (1 - x) * (1 + 2 * x)) by nra. assert (0 <= S * (x * (1 - 2 * x))) by (apply Rmult_le_pos; nra). nra. }
    assert (m * (2 * n * e53) <= B * (2 * n * e53)) by (apply Rmult_le_compat_r; nra). nra.
  - split; [exact L1|]. split; [rewrite L2; exact Ln|]. set (res := upgrade_loop _ _ _) in *. clearbody res. set (rs := rsum pR (snd res)) in *. set (n := INR (length l)) in *.
    replace (INR 100) with 100 in L5 by (simpl; lra). nra.
Qed.
Theorem usage_bound b l : (Z.of_nat (length l) <= 2 ^ 31)%Z -> all_sens l -> okd b -> 0 <= R b <= 4503599627370496 ->
  fgt (sum_power (start l)) b = false -> forall l', Permutation l' (rebalanced ord b l) ->
  okd (sum_power l') /\ R (sum_power l') <= R b * (1 + (3 * INR (length l) + 152) * (2 * e53)).
Proof.
  intros Hn F Ob Hb E l' P. destruct (rebalanced_normal b l Hn F Ob Hb E) as (A & Ln & S).
  assert (A' : all_ok l') by (rewrite Forall_forall in *; intros x Hx; apply A; apply (Permutation_in (l := l')); assumption).
  assert (Ln' : length l' = length l) by (rewrite <- Ln; apply Permutation_length; exact P).
  destruct (sum_power_R l') as (O & _ & H); [rewrite Ln'; exact Hn|exact A'|]. split; [exact O|]. rewrite Ln', (rsum_perm pR _ _ P) in H.
  pose proof (INR_small l Hn) as Hi. set (n := INR (length l)) in *. set (rs := rsum pR (rebalanced ord b l)) in *. set (B := R b) in *.
  clearbody n rs B. set (e := e53) in *. assert (He : 0 < e /\ 2147483648 * e <= / 1000000) by (unfold e; lra). clearbody e.
  assert (X : 0 <= n * e <= / 1000000) by nra.
  assert (rs * (1 + 2 * n * e) <= B * (1 + (2 * n + 301) * e) * (1 + 2 * n * e)) by (apply Rmult_le_compat_r; nra).
  assert (B * (1 + (2 * n + 301) * e) * (1 + 2 * n * e) <= B * (1 + (3 * n + 152) * (2 * e))); [|lra].
  rewrite Rmult_assoc. apply Rmult_le_compat_l; [lra|].
  assert (((2 * n + 301) * e) * (2 * (n * e)) <= ((2 * n + 301) * e) * / 500000) by (apply Rmult_le_compat_l; nra). nra.
Qed.
Lemma normal_if b l : (Z.of_nat (length l) <= 2 ^ 31)%Z -> all_sens l -> okd b -> 0 <= R b -> 
  rsum minR l <= R b * (1 - INR (length l) * (2 * e53)) -> fgt (sum_power (start l)) b = false.
Proof.
  intros Hn F Ob Hb H. destruct (start_facts l Hn F) as (_ & _ & _ & Om & _ & Em & P0). unfold fgt. apply flt_dF; auto.
  apply Rle_trans with (1 := proj2 Em). pose proof (INR_small l Hn) as Hi. set (n := INR (length l)) in *. set (S := rsum minR l) in *. set (B := R b) in *. clearbody n S B.
  set (x := 2 * n * e53). replace (n * (2 * e53)) with x in H by (unfold x; ring). assert (0 <= x <= / 1000) by (unfold x; lra). clearbody x.
  assert (S * (1 + x) <= B * (1 - x) * (1 + x)) by (apply Rmult_le_compat_r; lra).
  assert (0 <= B * (x * x)) by (apply Rmult_le_pos; nra). nra.
Qed.
Lemma emergency_if b l : (Z.of_nat (length l) <= 2 ^ 31)%Z -> all_sens l -> okd b -> 0 <= R b -> 
  rsum minR l > R b * (1 + INR (length l) * (2 * e53)) -> fgt (sum_power (start l)) b = true.
Proof.
  intros Hn F Ob Hb H. destruct (start_facts l Hn F) as (_ & _ & _ & Om & _ & Em & P0). unfold fgt. apply flt_d; auto.
  apply Rlt_le_trans with (2 := proj1 Em). pose proof (INR_small l Hn) as Hi. set (n := INR (length l)) in *. set (S := rsum minR l) in *. set (B := R b) in *. clearbody n S B.
  set (x := n * e53). replace (n * (2 * e53)) with (2 * x) in H by (unfold x; ring). replace (n * e53) with x by reflexivity. assert (0 <= x <= / 1000) by (unfold x; lra). clearbody x.
  assert (B * (1 + 2 * x) * (1 - x) < S * (1 - x)) by (apply Rmult_lt_compat_r; lra).
  assert (0 <= B * (x * (1 - 2 * x))) by (apply Rmult_le_pos; nra). nra.
Qed.
Theorem rebalanced_emergency b l k c : fgt (sum_power (start l)) b = true -> In (k, c) (rebalanced ord b l) -> ccur c = emergency_level c.
Proof. intros E H. unfold rebalanced in H. rewrite E in H. apply in_map_iff in H. destruct H as [[i d] [X _]]. cbn [fst snd] in X. injection X as <- <-. reflexivity. Qed.
End O.
