(** Properties C466-C468: activation functions (neural/activation.hpp). *)
From Coq Require Import List NArith ZArith Bool Arith Lia Reals Lra Psatz SpecFloat.
Import ListNotations.
From Flocq Require Import Core BinarySingleNaN Relative.
From Verif Require Import Outcome Words Floats FloatsR HealthFloat Bits_Model RMA3_Proofs Tester3_Proofs Hw_Proofs Hw2_Proofs Qft_Model Qft_Spec Qft2_Proofs Qft4_Proofs Qft5_Proofs Qft6_Proofs Qft8_Proofs Qft9_Proofs Qer_Spec Qer_Proofs Qer2_Proofs Qer3_Proofs Env3_Proofs Env4_Proofs EnvB_Props Qin_Proofs Qin2_Proofs Act_Model.
Local Open Scope R_scope.

(** a double that is a number, possibly infinite *)
Definition number (x : sf) : Prop := is_double x /\ x <> S754_nan.
(** what is needed of tanh *)
Record tanh_lib (f : sf -> sf) : Prop := { tanh_range : forall x, number x -> between (-1) 1 (f x); tanh_mono : lib_mono f }.

Lemma leak_bnd : bnd (-7) (-6) leak. Proof. apply lit_bnd. vm_compute. reflexivity. Qed.
Lemma leak_R : R leak = 10737418 / 1073741824.
Proof. assert (H : leak = S754_finite false 5764607394185216 (-59)) by (vm_compute; reflexivity). rewrite H, fin_R. cbn [cond_Zopp]. change (b2 (-59)) with (/ 576460752303423488). lra. Qed.
Lemma leak_fin x : okd x -> okd (dmul leak x) /\ R (dmul leak x) = rnd64 (R leak * R x).
Proof.
  intros O. pose proof leak_R as L. destruct leak_bnd as [[VL FL] _]. destruct O as [V F]. pose proof (E_bound x (conj V F)) as B. rewrite (E_fin _ F), BB_eq in B.
  assert (Q : - Rabs (R x) <= rnd64 (R leak * R x) <= Rabs (R x)). { assert (W : - Rabs (R x) <= R leak * R x <= Rabs (R x)) by (rewrite L; unfold Rabs; destruct (Rcase_abs (R x)); lra). assert (I1 : rnd64 (Rabs (R x)) = Rabs (R x)) by (unfold Rabs; destruct (Rcase_abs (R x)); rewrite ?rnd_opp, rnd_id by (split; assumption); reflexivity).
    destruct W as [W1 W2]. apply (rnd_le 53 1024) in W1, W2. rewrite rnd_opp in W1. rewrite I1 in W1, W2. split; assumption. }
  destruct (mul_R 53 1024 leak x VL V FL F) as (A & C & D). { apply Rle_lt_trans with (Rabs (R x)); [apply Rabs_le; exact Q|]. apply Rabs_def1; lra. } fold (dmul leak x) in *. split; [split; assumption|exact A].
Qed.
(** a number that is not positive *)
Lemma leak_neg x : dbl x -> E x <= 0 -> dbl (dmul leak x) /\ E x <= E (dmul leak x) <= 0.
Proof.
  intros D L. pose proof leak_R as LR. destruct (fin x) eqn:F.
  - assert (O : okd x) by (split; [apply D|exact F]). destruct (leak_fin x O) as [OO Q]. split; [apply okd_dbl, OO|]. rewrite (E_fin _ (proj2 OO)). rewrite (E_fin _ F) in L |- *. rewrite Q, LR. split; [rewrite <- (rnd_id x O) at 1; apply (rnd_le 53 1024); lra|]. rewrite <- rnd_0. apply (rnd_le 53 1024). lra.
  - destruct D as [V N]. pose proof BB_pos. destruct x as [z|[]| |z m e]; try discriminate F; try congruence; cbn [E] in L; [|lra]. assert (H0 : dmul leak (S754_infinity true) = S754_infinity true) by (vm_compute; reflexivity). rewrite H0. split; [split; [reflexivity|discriminate]|cbn [E]; lra].
Qed.
Lemma leak_mono x y : dbl x -> dbl y -> E x <= E y -> E y <= 0 -> E (dmul leak x) <= E (dmul leak y).
Proof.
  intros DX DY L M. destruct (leak_neg y DY M) as [D2 B2]. destruct (fin x) eqn:F.
  - assert (FY : fin y = true). { destruct (fin y) eqn:FY; [reflexivity|]. destruct DX as [VX NX]. pose proof (E_bound x (conj VX F)). pose proof BB_pos. destruct DY as [VY NY]. destruct y as [z|[]| |z m e]; try discriminate FY; try congruence; cbn [E] in *; lra. }
    destruct (leak_fin x (conj (proj1 DX) F)) as [O1 Q1]. destruct (leak_fin y (conj (proj1 DY) FY)) as [O2 Q2]. rewrite (E_fin _ (proj2 O1)), (E_fin _ (proj2 O2)), Q1, Q2. apply (rnd_le 53 1024). rewrite (E_fin _ F), (E_fin _ FY) in L. rewrite leak_R. lra.
  - pose proof BB_pos. destruct DX as [V N]. destruct x as [z|[]| |z m e]; try discriminate F; try congruence; [|cbn [E] in L; lra]. assert (H0 : dmul leak (S754_infinity true) = S754_infinity true) by (vm_compute; reflexivity). rewrite H0. cbn [E] in *. lra.
Qed.
Lemma zero_dbl : dbl d0. Proof. apply okd_dbl, z_ok. Qed.
Lemma relu_cases x : dbl x -> (flt d0 x = true /\ 0 < E x) \/ (flt d0 x = false /\ E x <= 0).
Proof. intros D. destruct (flt d0 x) eqn:A; [left|right]; (split; [reflexivity|]); [apply (ltE _ _ zero_dbl D) in A; rewrite E0 in A; exact A|]. apply Rnot_lt_le. intros Q. rewrite <- E0 in Q. apply (ltE _ _ zero_dbl D) in Q. congruence. Qed.
Lemma opp_n x : number x -> V64 (SFopp x) = true /\ SFopp x <> S754_nan. Proof. intros [V N]. destruct x; try congruence; split; try exact V; try reflexivity; discriminate. Qed.
Lemma exp_nneg fexp x : exp_lib fexp -> number x -> nneg (fexp x).
Proof.
  intros X [V N]. pose proof (exp_pos _ X x V N) as P. pose proof (exp_dbl _ X x V) as D. assert (DD : dbl (fexp x)) by (split; [exact D|intros Q; rewrite Q in P; discriminate P]). split; [exact DD|]. apply (leE d0 _ zero_dbl DD) in P. rewrite E0 in P. exact P.
Qed.

(** ** C466: what each activation gives *)
Theorem C466_values : forall fexp ftanh, exp_lib fexp -> tanh_lib ftanh ->
  (* max (0, x); a NaN gives 0 *)
  (forall x, number x -> let y := getActivationFunction fexp ftanh RELU x in fle d0 y = true /\ fle x y = true /\ (y = d0 \/ y = x)) /\
  getActivationFunction fexp ftanh RELU S754_nan = d0 /\
  (* x above zero, about a hundredth of it otherwise *)
  (forall x, number x -> flt d0 x = true -> getActivationFunction fexp ftanh LEAKY_RELU x = x) /\
  (forall x, number x -> fle x d0 = true -> let y := getActivationFunction fexp ftanh LEAKY_RELU x in number y /\ fle x y = true /\ fle y d0 = true) /\
  (forall x, finite_double x -> fle x d0 = true -> let y := getActivationFunction fexp ftanh LEAKY_RELU x in finite_double y /\ Rabs (R y - R x / 100) <= / 100000000 * / 100 * Rabs (R x) * 3 + bpow radix2 (-1074)) /\
  (* 0 to 1 *)
  (forall x, number x -> between 0 1 (getActivationFunction fexp ftanh SIGMOID x)) /\
  (forall x, number x -> between (-1) 1 (getActivationFunction fexp ftanh TANH x)) /\
  (forall x, getActivationFunction fexp ftanh LINEAR x = x) /\
  getActivationFunction fexp ftanh LEAKY_RELU S754_nan = S754_nan /\ getActivationFunction fexp ftanh SIGMOID S754_nan = S754_nan.
Proof.
  intros fexp ftanh X T. split; [|split; [reflexivity|split; [|split; [|split; [|split; [|split; [|split; [reflexivity|split]]]]]]]].
  - intros x D. cbv zeta. cbn [getActivationFunction]. destruct (relu_cases x D) as [[A B]|[A B]]; rewrite A.
    + split; [apply leE; [exact zero_dbl|exact D|rewrite E0; lra]|]. split; [apply leE; [exact D|exact D|lra]|right; reflexivity].
    + split; [reflexivity|]. split; [apply leE; [exact D|exact zero_dbl|rewrite E0; lra]|left; reflexivity].
  - intros x D A. cbn [getActivationFunction]. rewrite A. reflexivity.
  - intros x D A. cbv zeta. cbn [getActivationFunction]. apply (leE _ _ D zero_dbl) in A. rewrite E0 in A. destruct (relu_cases x D) as [[_ B]|[B _]]; [lra|]. rewrite B. destruct (leak_neg x D A) as [DD [L M]]. split; [exact DD|]. split; (apply leE; [assumption|assumption || exact zero_dbl|rewrite ?E0; assumption]). 
  - intros x O A. cbv zeta. cbn [getActivationFunction]. pose proof (okd_dbl _ O) as D. apply (leE _ _ D zero_dbl) in A. rewrite E0 in A. destruct (relu_cases x D) as [[_ B]|[B _]]; [lra|]. rewrite B. destruct (leak_fin x O) as [OO Q]. split; [exact OO|]. rewrite Q. rewrite (E_fin _ (proj2 O)) in A. pose proof leak_R as LR.
    set (t := R leak * R x). destruct (error_N_FLT radix2 (-1074) 53 ltac:(reflexivity) (fun z => negb (Z.even z)) t) as (eps & eta & E1' & E2' & _ & E4').
    assert (ER : rnd64 t = t * (1 + eps) + eta) by exact E4'. rewrite ER. assert (EB : Rabs eps <= / 1000000000000). { eapply Rle_trans; [exact E1'|]. unfold u_ro. change (bpow radix2 (- (53) + 1)) with (/ 4503599627370496). lra. }
    assert (TB : Rabs (eta) <= bpow radix2 (-1074)). { eapply Rle_trans; [exact E2'|]. pose proof (bpow_gt_0 radix2 (-1074)). lra. }
    replace (t * (1 + eps) + eta - R x / 100) with ((t - R x / 100) + t * eps + eta) by lra. eapply Rle_trans; [apply Rabs_triang|]. apply Rplus_le_compat; [|exact TB]. eapply Rle_trans; [apply Rabs_triang|]. rewrite Rabs_mult. unfold t. rewrite LR. rewrite (Rabs_left1 (R x)) by lra. rewrite (Rabs_left1 (10737418 / 1073741824 * R x)) by lra.
    rewrite (Rabs_pos_eq (10737418 / 1073741824 * R x - R x / 100)) by lra. assert (P : - (10737418 / 1073741824 * R x) * Rabs eps <= - (10737418 / 1073741824 * R x) * / 1000000000000) by (apply Rmult_le_compat_l; lra). lra.
  - intros x N. cbn [getActivationFunction]. pose proof (exp_nneg fexp _ X (opp_n x N)) as NE. destruct (one_more _ NE) as [A B]. apply recip; assumption.
  - intros x N. exact (tanh_range _ T x N).
  - vm_compute. reflexivity.
  - cbn [getActivationFunction SFopp]. rewrite (exp_nan _ X). vm_compute. reflexivity.
Qed.

(** ** C467: no chain of activations reverses an order *)
Definition chain (fexp ftanh : sf -> sf) (ts : list Activation) (x : sf) : sf := fold_left (fun v t => getActivationFunction fexp ftanh t v) ts x.
Lemma act_num fexp ftanh t x : exp_lib fexp -> tanh_lib ftanh -> number x -> number (getActivationFunction fexp ftanh t x).
Proof.
  intros X T N. destruct t; cbn [getActivationFunction]; [exact N| | |apply okd_dbl, (tanh_range _ T x N)|exact N|].
  - destruct (flt d0 x); [exact N|exact zero_dbl].
  - pose proof (exp_nneg fexp _ X (opp_n x N)) as NE. destruct (one_more _ NE) as [A B]. apply okd_dbl, (recip _ A B).
  - destruct (relu_cases x N) as [[A B]|[A B]]; rewrite A; [exact N|apply leak_neg; assumption].
Qed.
Lemma act_mono fexp ftanh t x y : exp_lib fexp -> tanh_lib ftanh -> lib_mono fexp -> number x -> number y -> fle x y = true -> fle (getActivationFunction fexp ftanh t x) (getActivationFunction fexp ftanh t y) = true.
Proof.
  intros X T M N N' L. pose proof (act_num fexp ftanh t x X T N) as P. pose proof (act_num fexp ftanh t y X T N') as P'. apply leE; [exact P|exact P'|]. assert (LE := L). apply (leE _ _ N N') in LE.
  destruct t; cbn [getActivationFunction] in *; [exact LE| | |apply leE; [exact P|exact P'|]; apply (tanh_mono _ T); [apply N|apply N'|exact L]|exact LE|].
  - destruct (relu_cases x N) as [[A B]|[A B]], (relu_cases y N') as [[C D]|[C D]]; rewrite A, C, ?E0; lra.
  - pose proof (opp_n x N) as O. pose proof (opp_n y N') as O'. pose proof (exp_nneg fexp _ X O) as NE. pose proof (exp_nneg fexp _ X O') as NE'. destruct (one_more _ NE) as [A B]. destruct (one_more _ NE') as [A' B'].
    assert (EE : E (fexp (SFopp y)) <= E (fexp (SFopp x))). { apply leE; [apply NE'|apply NE|]. apply M; [apply O'|apply O|]. apply leE; [exact O'|exact O|]. rewrite !opp_E. lra. }
    assert (SS : E (dadd d1 (fexp (SFopp y))) <= E (dadd d1 (fexp (SFopp x)))) by (apply add_mono; [exact N1|exact NE'|exact N1|exact NE|lra|exact EE]). pose proof (recip_anti _ _ A' A B' SS) as Q. rewrite !E_fin; [exact Q|apply (recip _ A' B')|apply (recip _ A B)].
  - destruct (relu_cases x N) as [[A B]|[A B]], (relu_cases y N') as [[C D]|[C D]]; rewrite A, C; [exact LE|lra| |apply leak_mono; assumption]. destruct (leak_neg x N B) as [_ Q]. lra.
Qed.
Theorem C467_order_kept : forall fexp ftanh ts x y, exp_lib fexp -> tanh_lib ftanh -> lib_mono fexp -> number x -> number y -> fle x y = true ->
  number (chain fexp ftanh ts x) /\ number (chain fexp ftanh ts y) /\ fle (chain fexp ftanh ts x) (chain fexp ftanh ts y) = true.
Proof.
  intros fexp ftanh ts x y X T M. revert x y. induction ts as [|t r IH]; intros x y N N' L; [split; [exact N|split; [exact N'|exact L]]|]. cbn [chain fold_left]. apply IH; [apply act_num; assumption|apply act_num; assumption|apply act_mono; assumption].
Qed.
Definition flat_tanh (x : sf) : sf := match x with S754_nan => S754_nan | _ => d0 end.
Lemma flat_ok : tanh_lib flat_tanh.
Proof. split; [intros x [V N]; destruct x; try congruence; cbn [flat_tanh]; (split; [apply z_ok|rewrite (proj2 z_ok); lra])|]. intros x y _ _ L. destruct x, y; try reflexivity; discriminate L. Qed.

(** ** C468: softmax *)
(** a value between 0 and 1 is what a softmax output is; asking for SOFTMAX gives the identity *)
Theorem C468_softmax_refuted : forall fexp ftanh, (forall x, getActivationFunction fexp ftanh SOFTMAX x = x) /\ ~ (forall x, number x -> between 0 1 (getActivationFunction fexp ftanh SOFTMAX x)).
Proof. intros fexp ftanh. split; [reflexivity|]. intros H. destruct (H (S754_infinity false)) as [[_ F] _]; [split; [reflexivity|discriminate]|]. discriminate F. Qed.
(** it is the only one that ends up as LINEAR: of the other four each differs from the identity on every negative number (RELU, LEAKY_RELU) or on 2 *)
Theorem C468_others_partial : forall fexp ftanh, exp_lib fexp -> tanh_lib ftanh ->
  (forall x, number x -> flt x d0 = true -> getActivationFunction fexp ftanh RELU x <> x) /\
  (forall x, finite_double x -> (R x <= - bpow radix2 (-1000))%R -> getActivationFunction fexp ftanh LEAKY_RELU x <> x) /\
  getActivationFunction fexp ftanh SIGMOID (dofZ 2) <> dofZ 2 /\ getActivationFunction fexp ftanh TANH (dofZ 2) <> dofZ 2.
Proof.
  intros fexp ftanh X T. destruct (C466_values fexp ftanh X T) as (A1 & _ & _ & _ & A5 & A6 & A7 & _). destruct (ofZ_ex 2 ltac:(lia)) as [O2 E2]. split; [|split; [|split]].
  - intros x N L Q. destruct (A1 x N) as [P _]. rewrite Q in P. apply (ltE _ _ N zero_dbl) in L. apply (leE _ _ zero_dbl N) in P. lra.
  - intros x O L Q. pose proof (bpow_gt_0 radix2 (-1000)) as PP. assert (LE : fle x d0 = true) by (apply leE; [apply okd_dbl, O|exact zero_dbl|rewrite E0, (E_fin _ (proj2 O)); lra]). destruct (A5 x O LE) as [_ B]. rewrite Q in B. rewrite Rabs_left1 in B by lra. rewrite Rabs_left1 in B by lra. assert (W : b2 (-1074) <= / 1000000 * b2 (-1000)). { change (-1074)%Z with (-74 + -1000)%Z. rewrite bpow_plus. apply Rmult_le_compat_r; [lra|]. change (b2 (-74)) with (/ 18889465931478580854784). lra. } set (k := b2 (-1000)) in *. set (j := b2 (-1074)) in *. clearbody k j. lra.
  - intros Q. destruct (A6 (dofZ 2) (okd_dbl _ O2)) as [_ B]. rewrite Q, E2 in B. lra.
  - intros Q. destruct (A7 (dofZ 2) (okd_dbl _ O2)) as [_ B]. rewrite Q, E2 in B. lra.
Qed.
Example C466_nonvacuous : exp_lib one_exp /\ tanh_lib flat_tanh /\ number (dofZ (-5)) /\ fle (dofZ (-5)) d0 = true /\ number (S754_infinity true) /\
  getActivationFunction one_exp flat_tanh LEAKY_RELU (S754_infinity true) = S754_infinity true /\ flt (getActivationFunction one_exp flat_tanh LEAKY_RELU (dofZ (-5))) d0 = true /\ getActivationFunction one_exp flat_tanh SIGMOID d0 = dq 1 2.
Proof. split; [exact one_exp_ok|]. split; [exact flat_ok|]. split; [split; [vm_compute; reflexivity|intros Q; vm_compute in Q; discriminate Q]|]. split; [vm_compute; reflexivity|]. split; [split; [reflexivity|discriminate]|]. split; [vm_compute; reflexivity|]. split; vm_compute; reflexivity. Qed.
Example C467_nonvacuous : exp_lib one_exp /\ tanh_lib flat_tanh /\ lib_mono one_exp /\ flt (chain one_exp flat_tanh [LEAKY_RELU; LEAKY_RELU; LINEAR] (dofZ (-5))) (chain one_exp flat_tanh [LEAKY_RELU; LEAKY_RELU; LINEAR] (dofZ (-4))) = true.
Proof. split; [exact one_exp_ok|]. split; [exact flat_ok|]. split; [exact one_exp_mono|]. vm_compute. reflexivity. Qed.
Example C468_nonvacuous : finite_double (dofZ (-5)) /\ (R (dofZ (-5)) <= - bpow radix2 (-1000))%R /\ getActivationFunction one_exp flat_tanh SOFTMAX (dofZ 7) = dofZ 7.
Proof. destruct (ofZ_ex (-5) ltac:(lia)) as [O Q]. split; [exact O|]. split; [|reflexivity]. rewrite Q. pose proof (bpow_le radix2 (-1000) 0 ltac:(lia)) as B. change (bpow radix2 0) with 1 in B. lra. Qed.

Print Assumptions C466_values.
Print Assumptions C467_order_kept.
Print Assumptions C468_softmax_refuted.
Print Assumptions C468_others_partial.
