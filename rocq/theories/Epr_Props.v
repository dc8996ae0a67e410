(** Properties C462-C465: the trained and the plain error predictor (neural/error_predictor.hpp). *)
From Coq Require Import List NArith ZArith Bool Arith Lia Reals Lra Psatz SpecFloat.
Import ListNotations.
From Flocq Require Import Core BinarySingleNaN.
From Verif Require Import Outcome Words Floats FloatsR HealthFloat Bits_Model RMA3_Proofs Tester3_Proofs Hw_Proofs Hw2_Proofs Qft_Model Qft_Spec Qft2_Proofs Qft4_Proofs Qft5_Proofs Qft6_Proofs Qft8_Proofs Qft9_Proofs Qer_Spec Qer_Proofs Qer2_Proofs Qer3_Proofs Env3_Proofs Env4_Proofs EnvB_Props Qin_Proofs Qin2_Proofs Epr_Model.
Local Open Scope R_scope.

(** a history of observations: level and rate *)
Definition observe (fexp flog10 : sf -> sf) (p : epred) (h : list (sf * sf)) : epred := fold_left (fun q o => updateModel fexp flog10 q (fst o) (snd o)) h p.
(** what is needed of log10: doubles to doubles, NaN to NaN *)
Record log_lib (f : sf -> sf) : Prop := { log_dbl : forall x, is_double x -> is_double (f x); log_nan : f S754_nan = S754_nan }.
Definition draws_ok (draw : nat -> sf) : Prop := forall k, between (- / 2) (/ 2) (draw k).
Definition doubles (h : list (sf * sf)) : Prop := Forall (fun o => is_double (fst o) /\ is_double (snd o)) h.

(** ** every number stays a double *)
Definition uv (u : hunit) : Prop := V64 (u_log u) = true /\ V64 (u_lin u) = true /\ V64 (u_one u) = true /\ V64 (u_bias u) = true /\ V64 (u_out u) = true.
Definition pv (p : epred) : Prop := Forall uv (e_units p) /\ V64 (e_bias p) = true.
Lemma sub_V x y : V64 x = true -> V64 y = true -> V64 (dsub x y) = true.
Proof. intros A B. pose proof (sub_equiv 53 1024 (lift 53 1024 x A) (lift 53 1024 y B)) as Q. rewrite !lift_sf in Q. unfold dsub. rewrite Q. apply valid_binary_B2SF. Qed.
Lemma opp_V x : V64 x = true -> V64 (SFopp x) = true. Proof. destruct x; intros Q; exact Q. Qed.
Lemma min_V x y : V64 x = true -> V64 y = true -> V64 (fmin x y) = true. Proof. intros A B. unfold fmin. destruct (flt y x); assumption. Qed.
Section V.
Variables fexp flog10 : sf -> sf.
Hypothesis (X : exp_lib fexp) (L : log_lib flog10).
Definition fv (f : sf * sf * sf) : Prop := let '(x, y, z) := f in V64 x = true /\ V64 y = true /\ V64 z = true.
Lemma feat_V l : V64 l = true -> fv (features flog10 l).
Proof. intros V. split; [apply (log_dbl _ L), add_V; [exact V|vm_compute; reflexivity]|]. split; [apply mul_V; [exact V|vm_compute; reflexivity]|reflexivity]. Qed.
Lemma hidden_V f u : fv f -> uv u -> V64 (hidden f u) = true.
Proof. destruct f as [[x y] z]. intros (A & B & C) (D & F & G & H & _). unfold hidden. apply max_V; [reflexivity|]. apply add_V; [|exact H]. apply add_V; [|apply mul_V; assumption]. apply add_V; [|apply mul_V; assumption]. apply add_V; [reflexivity|apply mul_V; assumption]. Qed.
Lemma output_V p f : pv p -> fv f -> V64 (output fexp p f) = true.
Proof.
  intros [U B] F. unfold output. cbv zeta. apply div_V; [reflexivity|]. apply add_V; [reflexivity|]. apply (exp_dbl _ X), opp_V, add_V; [|exact B]. assert (G : forall us a, Forall uv us -> V64 a = true -> V64 (fold_left (fun acc u => dadd acc (dmul (hidden f u) (u_out u))) us a) = true); [|apply G; [exact U|reflexivity]].
  induction us as [|u r IH]; intros a FU A; [exact A|]. inversion FU; subst. cbn [fold_left]. apply IH; [assumption|]. apply add_V; [exact A|]. apply mul_V; [apply hidden_V; assumption|]. unfold uv in *. tauto.
Qed.
Lemma update_V p l r : pv p -> V64 l = true -> V64 r = true -> pv (updateModel fexp flog10 p l r).
Proof.
  intros P A B. pose proof (feat_V l A) as F. pose proof (output_V p _ P F) as O. assert (LR : V64 (dq 1 100) = true) by (vm_compute; reflexivity). unfold updateModel. cbv zeta. set (f := features flog10 l) in *. set (e := dsub r (output fexp p f)). assert (E : V64 e = true) by (apply sub_V; assumption). clearbody e f. destruct P as [U BB]. split; cbn [e_units e_bias]; [|apply add_V; [exact BB|apply mul_V; assumption]].
  apply Forall_map. eapply Forall_impl; [|exact U]. intros u UV. pose proof (hidden_V f u F UV) as H. unfold train_unit. cbv zeta. set (h := hidden f u) in *. destruct UV as (A1 & A2 & A3 & A4 & A5). set (lr := dq 1 100) in *. clearbody lr h.
  assert (HE : V64 (dmul (dadd d0 (dmul e (u_out u))) (if flt d0 h then d1 else d0)) = true) by (apply mul_V; [apply add_V; [reflexivity|apply mul_V; assumption]|destruct (flt d0 h); reflexivity]). set (he := dmul _ _) in *. clearbody he.
  destruct f as [[x y] z]. destruct F as (F1 & F2 & F3). unfold uv. cbn [u_log u_lin u_one u_bias u_out]. split; [apply add_V; [exact A1|apply mul_V; [apply mul_V; assumption|exact F1]]|]. split; [apply add_V; [exact A2|apply mul_V; [apply mul_V; assumption|exact F2]]|]. split; [apply add_V; [exact A3|apply mul_V; [apply mul_V; assumption|exact F3]]|]. split; [apply add_V; [exact A4|apply mul_V; assumption]|]. apply add_V; [exact A5|apply mul_V; [apply mul_V; assumption|exact H]].
Qed.
Lemma observe_V h : forall p, pv p -> doubles h -> pv (observe fexp flog10 p h).
Proof. induction h as [|o r IH]; intros p P D; [exact P|]. inversion D as [|? ? [D1 D2] D3]; subst. cbn [observe fold_left]. apply IH; [apply update_V; assumption|exact D3]. Qed.
End V.
Lemma new_V draw : draws_ok draw -> pv (epred_new draw).
Proof.
  intros D. assert (K : forall k, V64 (draw k) = true) by (intros k; apply (D k)). split; [|vm_compute; reflexivity]. unfold epred_new. cbv zeta. cbn [e_units u_log u_lin u_one u_bias u_out].
  apply Forall_cons; [split; [vm_compute; reflexivity|split; [vm_compute; reflexivity|split; [apply K|split; [reflexivity|vm_compute; reflexivity]]]]|]. apply Forall_cons; [split; [vm_compute; reflexivity|split; [apply K|split; [apply K|split; [reflexivity|vm_compute; reflexivity]]]]|].
  apply Forall_cons; [split; [apply K|split; [apply K|split; [apply K|split; [reflexivity|apply K]]]]|]. apply Forall_cons; [split; [apply K|split; [apply K|split; [apply K|split; [reflexivity|apply K]]]]|]. apply Forall_cons; [split; [apply K|split; [apply K|split; [apply K|split; [reflexivity|apply K]]]]|]. apply Forall_nil.
Qed.
Lemma clamp01 x : V64 x = true -> between 0 1 (fmax d0 (fmin d1 x)).
Proof.
  intros V. unfold fmin. destruct (flt x d1) eqn:A.
  - pose proof (proj1 (flt_nn _ _ A)) as N. unfold fmax. destruct (flt d0 x) eqn:B; [|split; [apply z_ok|rewrite (proj2 z_ok); lra]]. apply (ltE _ _ (conj V N) (okd_dbl _ (proj1 o_ok))) in A. apply (ltE _ _ (okd_dbl _ (proj1 z_ok)) (conj V N)) in B. rewrite E1 in A. rewrite E0 in B.
    assert (F : fin x = true). { pose proof BB_pos as Q. assert (1 < BB). { pose proof (E_bound _ (proj1 o_ok)) as Q1. rewrite E1 in Q1. lra. } destruct x as [s|[]| |s m e]; try reflexivity; cbn [E] in *; try lra. congruence. } rewrite (E_fin _ F) in *. split; [split; assumption|lra].
  - assert (Q : fmax d0 d1 = d1) by (vm_compute; reflexivity). rewrite Q. split; [apply o_ok|rewrite (proj2 o_ok); lra].
Qed.

(** ** C462: predictions are rates *)
Theorem C462_predictions_in_range : forall fexp flog10 draw h level, exp_lib fexp -> log_lib flog10 -> draws_ok draw -> doubles h -> is_double level ->
  between 0 1 (predictErrorRate fexp flog10 (observe fexp flog10 (epred_new draw) h) level).
Proof. intros fexp flog10 draw h level X L D H V. unfold predictErrorRate. apply clamp01. apply output_V; [exact X|apply observe_V; [exact X|exact L|apply new_V, D|exact H]|apply feat_V; assumption]. Qed.
Definition no_log (x : sf) : sf := match x with S754_nan => S754_nan | _ => dofZ (-8) end.
Lemma no_log_ok : log_lib no_log.
Proof. split; [intros x V; destruct x; try reflexivity; vm_compute; reflexivity|reflexivity]. Qed.
Definition draw_half (k : nat) : sf := dq 1 2.
Lemma half_ok : draws_ok draw_half.
Proof. intros k. assert (H : draw_half k = S754_finite false 4503599627370496 (-53)) by (vm_compute; reflexivity). rewrite H. split; [split; reflexivity|]. rewrite fin_R. cbn [cond_Zopp]. change (b2 (-53)) with (/ 9007199254740992). lra. Qed.
Example C462_nonvacuous : exp_lib stair_exp /\ log_lib no_log /\ draws_ok draw_half /\ doubles [(dq 1 1000, dq 1 10); (S754_nan, S754_infinity true)] /\
  flt d0 (predictErrorRate stair_exp no_log (observe stair_exp no_log (epred_new draw_half) [(dq 1 1000, dq 1 10)]) (dofZ 1)) = true /\ flt (predictErrorRate stair_exp no_log (epred_new draw_half) d0) d1 = true.
Proof. split; [exact stair_ok|]. split; [exact no_log_ok|]. split; [exact half_ok|]. split; [|split; vm_compute; reflexivity]. apply Forall_cons; [split; vm_compute; reflexivity|]. apply Forall_cons; [split; reflexivity|apply Forall_nil]. Qed.

(** ** C463: bad observations *)
Lemma nan_add x : dadd S754_nan x = S754_nan /\ dadd x S754_nan = S754_nan. Proof. destruct x as [[]|[]| |[]]; split; reflexivity. Qed.
Lemma nan_mul x : dmul S754_nan x = S754_nan /\ dmul x S754_nan = S754_nan. Proof. destruct x as [[]|[]| |[]]; split; reflexivity. Qed.
Lemma nan_bias fexp flog10 h : forall p, e_bias p = S754_nan -> e_bias (observe fexp flog10 p h) = S754_nan.
Proof. induction h as [|o r IH]; intros p B; [exact B|]. cbn [observe fold_left]. apply IH. unfold updateModel. cbv zeta. cbn [e_bias]. rewrite B. apply nan_add. Qed.
(** one NaN rate and the predictor answers 1 for ever, whatever it observes later *)
Theorem C463_recovers_refuted : forall fexp flog10 p level later l, exp_lib fexp ->
  predictErrorRate fexp flog10 (observe fexp flog10 p ((level, S754_nan) :: later)) l = d1.
Proof.
  intros fexp flog10 p level later l X. cbn [observe fold_left fst snd]. set (q := updateModel fexp flog10 p level S754_nan). assert (B : e_bias q = S754_nan). { unfold q, updateModel. cbv zeta. cbn [e_bias]. set (o := output _ _ _). assert (Q : dsub S754_nan o = S754_nan) by (destruct o; reflexivity). rewrite Q, (proj2 (nan_mul _)). apply nan_add. }
  clearbody q. pose proof (nan_bias fexp flog10 later q B) as N. unfold observe in N. set (q' := fold_left _ _ _) in *. clearbody q'. unfold predictErrorRate, output. cbv zeta. rewrite N, (proj2 (nan_add _)). cbn [SFopp]. rewrite (exp_nan _ X), (proj2 (nan_add _)). vm_compute. reflexivity.
Qed.
(** one observation at a NaN level and the level no longer matters, for ever; a prediction at a NaN level leaves the predictor as it was and is the same for every NaN *)
Lemma nan_log fexp flog10 h : forall p, Forall (fun u => u_log u = S754_nan) (e_units p) -> Forall (fun u => u_log u = S754_nan) (e_units (observe fexp flog10 p h)).
Proof.
  induction h as [|o r IH]; intros p B; [exact B|]. cbn [observe fold_left]. apply IH. unfold updateModel. cbv zeta. cbn [e_units]. apply Forall_map. eapply Forall_impl; [|exact B]. intros u U. cbn beta. unfold train_unit. cbv zeta. destruct (features flog10 (fst o)) as [[x y] z]. cbn [u_log]. rewrite U. apply nan_add.
Qed.
Theorem C463_levels_partial : forall fexp flog10 p rate later l l', log_lib flog10 ->
  predictErrorRate fexp flog10 (observe fexp flog10 p ((S754_nan, rate) :: later)) l = predictErrorRate fexp flog10 (observe fexp flog10 p ((S754_nan, rate) :: later)) l'.
Proof.
  intros fexp flog10 p rate later l l' L. cbn [observe fold_left fst snd]. set (q := updateModel fexp flog10 p S754_nan rate). assert (B : Forall (fun u => u_log u = S754_nan) (e_units q)).
  { unfold q, updateModel. cbv zeta. cbn [e_units]. apply Forall_map. apply Forall_forall. intros u _. unfold train_unit, features. cbv zeta. cbn [u_log]. rewrite (proj1 (nan_add _)), (log_nan _ L), (proj2 (nan_mul _)). apply nan_add. }
  clearbody q. pose proof (nan_log fexp flog10 later q B) as N. unfold observe in N. set (q' := fold_left _ _ _) in *. clearbody q'. unfold predictErrorRate, output. cbv zeta.
  assert (HZ : forall f u, u_log u = S754_nan -> hidden f u = d0). { intros [[x y] z] u U. unfold hidden. rewrite U, (proj2 (nan_mul _)), (proj2 (nan_add _)), !(proj1 (nan_add _)). reflexivity. }
  assert (G : forall us a, Forall (fun u => u_log u = S754_nan) us -> fold_left (fun acc u => dadd acc (dmul (hidden (features flog10 l) u) (u_out u))) us a = fold_left (fun acc u => dadd acc (dmul (hidden (features flog10 l') u) (u_out u))) us a).
  { induction us as [|u r IH]; intros a F; [reflexivity|]. inversion F; subst. cbn [fold_left]. rewrite !HZ by assumption. apply IH. assumption. }
  rewrite G by exact N. reflexivity.
Qed.
Example C463_nonvacuous : predictErrorRate stair_exp no_log (observe stair_exp no_log (epred_new draw_half) [(dq 1 1000, S754_nan); (dq 1 1000, dq 1 10); (dq 1 1000, dq 1 10)]) (dq 1 1000) = d1 /\
  flt (predictErrorRate stair_exp no_log (observe stair_exp no_log (epred_new draw_half) [(dq 1 1000, dq 1 10); (dq 1 1000, dq 1 10)]) (SFopp (dofZ 1))) d1 = true.
Proof. split; vm_compute; reflexivity. Qed.

(** ** C464: observing what it predicts teaches it nothing *)
Definition isz (x : sf) : Prop := exists s, x = S754_zero s.
Definition eqz (x y : sf) : Prop := x = y \/ (isz x /\ isz y).
Lemma eqz_refl x : eqz x x. Proof. left. reflexivity. Qed.
Lemma eqz_mul x y y' : eqz y y' -> eqz (dmul x y) (dmul x y').
Proof. intros [->|[[s ->] [s' ->]]]; [apply eqz_refl|]. destruct x as [z|z| |z m e]; [right; split; eexists; reflexivity|left; reflexivity|left; reflexivity|right; split; eexists; reflexivity]. Qed.
Lemma eqz_add x x' y y' : eqz x x' -> eqz y y' -> eqz (dadd x y) (dadd x' y').
Proof.
  assert (Z : forall s s', isz (dadd (S754_zero s) (S754_zero s'))) by (intros [] []; eexists; reflexivity). assert (ZR : forall s x, ~ isz x -> dadd (S754_zero s) x = x /\ dadd x (S754_zero s) = x) by (intros s [z|z| |z m e] N; [exfalso; apply N; eexists; reflexivity|split; reflexivity..]).
  assert (D : forall x, isz x \/ ~ isz x) by (intros [z|z| |z m e]; [left; eexists; reflexivity|right; intros [? Q]; discriminate Q..]).
  intros [->|[[s ->] [s' ->]]] [->|[[t ->] [t' ->]]]; [apply eqz_refl| | |right; split; apply Z].
  - destruct (D x') as [[z ->]|N]; [right; split; apply Z|]. rewrite !(proj2 (ZR _ _ N)). apply eqz_refl.
  - destruct (D y') as [[z ->]|N]; [right; split; apply Z|]. rewrite !(proj1 (ZR _ _ N)). apply eqz_refl.
Qed.
Lemma eqz_max x y : eqz x y -> fmax d0 x = fmax d0 y. Proof. intros [->|[[s ->] [s' ->]]]; [reflexivity|]. destruct s, s'; reflexivity. Qed.
Definition uz (u v : hunit) : Prop := eqz (u_log u) (u_log v) /\ eqz (u_lin u) (u_lin v) /\ eqz (u_one u) (u_one v) /\ eqz (u_bias u) (u_bias v) /\ eqz (u_out u) (u_out v).
Lemma hidden_eqz f u v : uz u v -> hidden f u = hidden f v.
Proof. destruct f as [[x y] z]. intros (A & B & C & D & _). unfold hidden. apply eqz_max. apply eqz_add; [|exact D]. apply eqz_add; [|apply eqz_mul, C]. apply eqz_add; [|apply eqz_mul, B]. apply eqz_add; [apply eqz_refl|apply eqz_mul, A]. Qed.
Lemma output_eqz fexp p q f : fexp (S754_zero true) = fexp (S754_zero false) -> Forall2 uz (e_units p) (e_units q) -> eqz (e_bias p) (e_bias q) -> output fexp p f = output fexp q f.
Proof.
  intros Z U B. unfold output. cbv zeta. assert (G : forall us vs a b, Forall2 uz us vs -> eqz a b -> eqz (fold_left (fun acc u => dadd acc (dmul (hidden f u) (u_out u))) us a) (fold_left (fun acc u => dadd acc (dmul (hidden f u) (u_out u))) vs b)).
  { intros us vs a b F. revert a b. induction F as [|u v us vs UV F IH]; intros a b AB; [exact AB|]. cbn [fold_left]. apply IH. rewrite (hidden_eqz f u v UV). apply eqz_add; [exact AB|]. apply eqz_mul, UV. }
  pose proof (eqz_add _ _ _ _ (G _ _ _ _ U (eqz_refl d0)) B) as H. set (x := dadd _ (e_bias p)) in *. set (y := dadd _ (e_bias q)) in *. clearbody x y. destruct H as [->|[[s ->] [s' ->]]]; [reflexivity|]. destruct s, s'; cbn [SFopp negb]; rewrite ?Z; reflexivity.
Qed.
Lemma zero_mul x y : isz x -> fin y = true -> isz (dmul x y) /\ isz (dmul y x). Proof. intros [s ->] F. destruct y as [z|z| |z m e]; try discriminate F; split; eexists; reflexivity. Qed.
Lemma zero_add w z : isz z -> eqz w (dadd w z). Proof. intros [s ->]. destruct w as [t|t| |t m e]; [right; split; [eexists; reflexivity|destruct s, t; eexists; reflexivity]|left; reflexivity..]. Qed.
Lemma R_zero_isz x : okd x -> R x = 0 -> isz x.
Proof. intros [V F] Q. destruct x as [s|s| |s m e]; try discriminate F; [eexists; reflexivity|]. exfalso. rewrite fin_R in Q. pose proof (bpow_gt_0 radix2 e). apply Rmult_integral in Q. destruct Q as [Q|Q]; [|lra]. apply (eq_IZR _ 0) in Q. destruct s; cbn [cond_Zopp] in Q; lia. Qed.
(** magnitudes *)
Definition bm (k : Z) (x : sf) : Prop := okd x /\ - b2 k <= R x <= b2 k.
Lemma rnd_bm k t : (-1000 <= k <= 1000)%Z -> - b2 k <= t <= b2 k -> - b2 k <= rnd64 t <= b2 k /\ Rabs (rnd64 t) < b2 1024.
Proof.
  intros K [A B]. apply (rnd_le 53 1024) in A, B. rewrite rnd_opp in A. rewrite (rnd_bpow k) in A, B by lia. split; [split; assumption|]. apply Rle_lt_trans with (b2 k); [apply Rabs_le; split; assumption|apply bpow_lt; lia].
Qed.
Lemma bm_mul j k x y : bm j x -> bm k y -> (-1000 <= j + k <= 1000)%Z -> bm (j + k) (dmul x y).
Proof.
  intros [[Vx Fx] X] [[Vy Fy] Y] K. assert (B : - b2 (j + k) <= R x * R y <= b2 (j + k)). { apply Rabs_le_inv. rewrite Rabs_mult, bpow_plus. apply Rmult_le_compat; [apply Rabs_pos|apply Rabs_pos|apply Rabs_le, X|apply Rabs_le, Y]. }
  destruct (rnd_bm _ _ K B) as [Q O]. destruct (mul_R 53 1024 x y Vx Vy Fx Fy O) as (H1 & H2 & H3). fold (dmul x y) in *. split; [split; assumption|]. rewrite H1. exact Q.
Qed.
Lemma bm_add k x y : bm k x -> bm k y -> (-1000 <= k < 1000)%Z -> bm (k + 1) (dadd x y).
Proof.
  intros [[Vx Fx] X] [[Vy Fy] Y] K. assert (B : - b2 (k + 1) <= R x + R y <= b2 (k + 1)) by (rewrite bpow_plus; change (b2 1) with 2; lra).
  destruct (rnd_bm (k + 1) _ ltac:(lia) B) as [Q O]. destruct (add_R 53 1024 x y Vx Vy Fx Fy O) as (H1 & H2 & H3). fold (dadd x y) in *. split; [split; assumption|]. rewrite H1. exact Q.
Qed.
Lemma bm_weak j k x : bm j x -> (j <= k)%Z -> bm k x. Proof. intros [O B] L. split; [exact O|]. pose proof (bpow_le radix2 j k L). lra. Qed.
Lemma bm_0 k : bm k d0. Proof. split; [apply z_ok|]. rewrite (proj2 z_ok). pose proof (bpow_gt_0 radix2 k). lra. Qed.
(** a weight: a double of magnitude at most 2^100 *)
Definition small_double (x : sf) : Prop := between (- bpow radix2 100) (bpow radix2 100) x.
Definition small_unit (u : hunit) : Prop := small_double (u_log u) /\ small_double (u_lin u) /\ small_double (u_one u) /\ small_double (u_bias u) /\ small_double (u_out u).
Definition small_weights (p : epred) : Prop := Forall small_unit (e_units p) /\ small_double (e_bias p) /\ (length (e_units p) <= 5)%nat.
Lemma small_bm x : small_double x -> bm 100 x. Proof. intros [O B]. split; assumption. Qed.
Lemma hidden_bm x y z u : bm 100 x -> bm 100 y -> bm 100 z -> small_unit u -> bm 204 (hidden (x, y, z) u).
Proof.
  intros A B C (D & F & G & H & _). apply small_bm in D, F, G, H. unfold hidden.
  pose proof (bm_mul 100 100 _ _ A D ltac:(lia)) as M1. pose proof (bm_mul 100 100 _ _ B F ltac:(lia)) as M2. pose proof (bm_mul 100 100 _ _ C G ltac:(lia)) as M3. change (100 + 100)%Z with 200%Z in *.
  pose proof (bm_add 200 _ _ (bm_0 200) M1 ltac:(lia)) as S1. change (200 + 1)%Z with 201%Z in *. pose proof (bm_add 201 _ _ S1 (bm_weak 200 201 _ M2 ltac:(lia)) ltac:(lia)) as S2. change (201 + 1)%Z with 202%Z in *. pose proof (bm_add 202 _ _ S2 (bm_weak 200 202 _ M3 ltac:(lia)) ltac:(lia)) as S3. change (202 + 1)%Z with 203%Z in *. pose proof (bm_add 203 _ _ S3 (bm_weak 100 203 _ H ltac:(lia)) ltac:(lia)) as S4.
  set (s := dadd _ (u_bias u)) in *. clearbody s. unfold fmax. destruct (flt d0 s); [eapply bm_weak; [exact S4|lia]|apply bm_0].
Qed.
Lemma sigmoid_okd fexp x : exp_lib fexp -> V64 x = true -> x <> S754_nan -> inr 0 1 (ddiv d1 (dadd d1 (fexp x))).
Proof.
  intros X V N. pose proof (exp_pos _ X x V N) as P. pose proof (exp_dbl _ X x V) as D. assert (NE : nneg (fexp x)). { assert (DD : dbl (fexp x)) by (split; [exact D|intros Q; rewrite Q in P; discriminate P]). split; [exact DD|]. apply (leE d0 _ (okd_dbl _ (proj1 z_ok)) DD) in P. rewrite E0 in P. exact P. }
  destruct (one_more _ NE) as [A B]. apply recip; assumption.
Qed.
Lemma sum_bm f : forall us a k, Forall (fun u => bm 204 (hidden f u) /\ bm 100 (u_out u)) us -> bm k a -> (304 <= k)%Z -> (k + Z.of_nat (length us) <= 400)%Z -> bm (k + Z.of_nat (length us)) (fold_left (fun acc u => dadd acc (dmul (hidden f u) (u_out u))) us a).
Proof.
  induction us as [|u r IH]; intros a k F A K L; cbn [length] in *; [replace (k + Z.of_nat 0)%Z with k by lia; exact A|]. inversion F as [|? ? [F1 F2] F3]; subst. cbn [fold_left]. replace (k + Z.of_nat (S (length r)))%Z with (k + 1 + Z.of_nat (length r))%Z by lia. apply IH; [exact F3| |lia|lia].
  apply bm_add; [exact A| |lia]. eapply bm_weak; [exact (bm_mul 204 100 _ _ F1 F2 ltac:(lia))|lia].
Qed.
Lemma clamp_id x : inr 0 1 x -> okd (fmax d0 (fmin d1 x)) /\ R (fmax d0 (fmin d1 x)) = R x.
Proof.
  intros [O B]. unfold fmin. destruct (flt x d1) eqn:A.
  - unfold fmax. destruct (flt d0 x) eqn:Q; [split; [exact O|reflexivity]|]. apply (flt_dF _ _ (proj1 z_ok) O) in Q. rewrite (proj2 z_ok) in Q. split; [apply z_ok|]. rewrite (proj2 z_ok). lra.
  - apply (flt_dF _ _ O (proj1 o_ok)) in A. rewrite (proj2 o_ok) in A. assert (Q : fmax d0 d1 = d1) by (vm_compute; reflexivity). rewrite Q. split; [apply o_ok|]. rewrite (proj2 o_ok). lra.
Qed.
Theorem C464_nothing_to_learn : forall fexp flog10 p level, exp_lib fexp -> log_lib flog10 -> fexp (S754_zero true) = fexp (S754_zero false) -> small_weights p ->
  between (- bpow radix2 70) (bpow radix2 70) level -> small_double (flog10 (dadd level (dq 1 (10 ^ 10)%positive))) ->
  forall l, predictErrorRate fexp flog10 (updateModel fexp flog10 p level (predictErrorRate fexp flog10 p level)) l = predictErrorRate fexp flog10 p l.
Proof.
  intros fexp flog10 p level X L Z (SU & SB & SL) [LO LB] SF l.
  assert (BL : bm 70 level) by (split; assumption). assert (BT : bm 24 (dofZ 10000000)). { assert (H : bnd 23 24 (dofZ 10000000)) by (apply lit_bnd; vm_compute; reflexivity). set (t := dofZ 10000000) in *. clearbody t. destruct H as [O B]. split; [exact O|]. pose proof (bpow_gt_0 radix2 23). pose proof (bpow_gt_0 radix2 24). lra. }
  pose proof (bm_mul 70 24 _ _ BL BT ltac:(lia)) as F2. pose proof (small_bm _ SF) as F1. assert (F3 : bm 100 d1). { split; [apply o_ok|]. rewrite (proj2 o_ok). pose proof (bpow_le radix2 0 100 ltac:(lia)) as Q. change (bpow radix2 0) with 1 in Q. lra. }
  unfold predictErrorRate at 1 3. f_equal. f_equal. symmetry. unfold updateModel. cbv zeta. unfold predictErrorRate. change (features flog10 level) with (flog10 (dadd level (dq 1 (10 ^ 10)%positive)), dmul level (dofZ 10000000), d1). set (x := flog10 (dadd level (dq 1 (10 ^ 10)%positive))) in *. set (y := dmul level (dofZ 10000000)) in *. clearbody x y. apply (bm_weak _ 100) in F2; [|lia]. set (f := (x, y, d1)). fold f.
  assert (HB : Forall (fun u => bm 204 (hidden f u) /\ bm 100 (u_out u)) (e_units p)). { eapply Forall_impl; [|exact SU]. intros u U. split; [apply hidden_bm; assumption|apply small_bm, U]. }
  assert (OB : inr 0 1 (output fexp p f)). { unfold output. cbv zeta. pose proof (sum_bm f (e_units p) d0 304 HB (bm_0 304) ltac:(lia) ltac:(lia)) as S. assert (S2 : bm 310 (fold_left (fun acc u => dadd acc (dmul (hidden f u) (u_out u))) (e_units p) d0)) by (eapply bm_weak; [exact S|lia]). pose proof (bm_add 310 _ _ S2 (bm_weak 100 310 _ (small_bm _ SB) ltac:(lia)) ltac:(lia)) as S3. set (r := dadd _ (e_bias p)) in *. clearbody r. destruct S3 as [OR _]. apply sigmoid_okd; [exact X|apply (opp_okd _ OR)|]. destruct OR as [_ FR]. destruct r; try discriminate FR; discriminate. }
  destruct (clamp_id _ OB) as [OC EC]. destruct OB as [OO BO]. set (o := output fexp p f) in *. assert (EZ : isz (dsub (fmax d0 (fmin d1 o)) o)). { destruct (sub_d _ o OC OO) as [OS ES]; [rewrite EC; apply (mid_of (-1) 1); [lia|lia|lra]|]. apply R_zero_isz; [exact OS|]. rewrite ES, EC. replace (R o - R o) with 0 by lra. apply rnd_0. }
  set (e := dsub _ o) in *. clearbody e. assert (LR : fin (dq 1 100) = true) by (vm_compute; reflexivity). set (lr := dq 1 100) in *.
  apply output_eqz; [exact Z| |cbn [e_bias]; apply zero_add, (zero_mul e lr EZ LR)]. cbn [e_units]. clear - SU HB EZ LR F1 F2 F3. induction (e_units p) as [|u r IH]; cbn [map]; [constructor|]. inversion SU as [|? ? S1 S2]; subst. inversion HB as [|? ? [H1 H2] H3]; subst. constructor; [|apply IH; assumption].
  unfold train_unit. cbv zeta. unfold f at 2. fold lr. set (h := hidden f u) in *. assert (HE : isz (dmul (dadd d0 (dmul e (u_out u))) (if flt d0 h then d1 else d0))). { refine (proj1 (zero_mul _ _ _ _)); [|destruct (flt d0 h); reflexivity]. destruct (zero_mul e (u_out u) EZ (proj2 (proj1 H2))) as [[s ->] _]. destruct s; eexists; reflexivity. }
  set (he := dmul (dadd d0 _) _) in *. clearbody he h. assert (ZL : forall a k, bm k a -> isz (dmul (dmul lr he) a)). { intros a k A. apply (zero_mul _ a); [apply (zero_mul he lr HE LR)|apply A]. }
  unfold uz. cbn [u_log u_lin u_one u_bias u_out]. split; [apply zero_add, (ZL x 100%Z F1)|]. split; [apply zero_add, (ZL y 100%Z F2)|]. split; [apply zero_add, (ZL d1 100%Z F3)|]. split; [apply zero_add, (zero_mul he lr HE LR)|]. apply zero_add. apply (zero_mul _ h); [apply (zero_mul e lr EZ LR)|apply H1].
Qed.
Lemma lit_small x : litb (-100) 90 x = true -> small_double x.
Proof. intros H. apply lit_bnd in H. destruct H as [O B]. split; [exact O|]. pose proof (bpow_gt_0 radix2 (-100)). pose proof (bpow_le radix2 90 100 ltac:(lia)). pose proof (bpow_gt_0 radix2 100). lra. Qed.
Lemma zero_small : small_double d0. Proof. apply (bm_0 100). Qed.
Example C464_nonvacuous : stair_exp (S754_zero true) = stair_exp (S754_zero false) /\ small_weights (epred_new draw_half) /\ between (- bpow radix2 70) (bpow radix2 70) d0 /\ small_double (no_log (dadd d0 (dq 1 (10 ^ 10)%positive))) /\
  flt d0 (predictErrorRate stair_exp no_log (epred_new draw_half) d0) = true.
Proof.
  split; [reflexivity|]. split.
  - split; [|split; [apply lit_small; vm_compute; reflexivity|cbn; lia]]. unfold epred_new. cbv zeta. cbn [e_units u_log u_lin u_one u_bias u_out].
    apply Forall_cons; [split; [apply lit_small; vm_compute; reflexivity|split; [apply lit_small; vm_compute; reflexivity|split; [apply lit_small; vm_compute; reflexivity|split; [apply zero_small|apply lit_small; vm_compute; reflexivity]]]]|].
    apply Forall_cons; [split; [apply lit_small; vm_compute; reflexivity|split; [apply lit_small; vm_compute; reflexivity|split; [apply lit_small; vm_compute; reflexivity|split; [apply zero_small|apply lit_small; vm_compute; reflexivity]]]]|].
    apply Forall_cons; [split; [apply lit_small; vm_compute; reflexivity|split; [apply lit_small; vm_compute; reflexivity|split; [apply lit_small; vm_compute; reflexivity|split; [apply zero_small|apply lit_small; vm_compute; reflexivity]]]]|].
    apply Forall_cons; [split; [apply lit_small; vm_compute; reflexivity|split; [apply lit_small; vm_compute; reflexivity|split; [apply lit_small; vm_compute; reflexivity|split; [apply zero_small|apply lit_small; vm_compute; reflexivity]]]]|].
    apply Forall_cons; [split; [apply lit_small; vm_compute; reflexivity|split; [apply lit_small; vm_compute; reflexivity|split; [apply lit_small; vm_compute; reflexivity|split; [apply zero_small|apply lit_small; vm_compute; reflexivity]]]]|apply Forall_nil].
  - split; [apply (bm_0 70)|]. split; [|vm_compute; reflexivity]. destruct (ofZ_ex (-8) ltac:(lia)) as [O E]. assert (Q : no_log (dadd d0 (dq 1 (10 ^ 10)%positive)) = dofZ (-8)) by (vm_compute; reflexivity). rewrite Q. split; [exact O|]. rewrite E. pose proof (bpow_le radix2 3 100 ltac:(lia)) as B. change (bpow radix2 3) with 8 in B. lra.
Qed.

(** ** C465: the plain predictor's documented bands *)
Definition e9 : sf := dq 1 (10 ^ 9)%positive.
Definition e8 : sf := dq 1 (10 ^ 8)%positive.
Definition e7 : sf := dq 1 (10 ^ 7)%positive.
Definition e6 : sf := dq 1 (10 ^ 6)%positive.
Definition in_band (lo hi s : sf) : Prop := fle lo s = true /\ flt s hi = true.
Definition within (a b x : sf) : Prop := fle a x = true /\ fle x b = true.
(** low radiation is documented as 0.01 to 0.05: a rate in that band is answered with more than 4, one below it with a negative rate,
    and the answer drops as the rate rises across 1e-8 *)
Theorem C465_bands_refuted : exists s z s', is_double s /\ in_band e9 e8 s /\ flt (dofZ 4) (plain_predict s) = true /\ is_double z /\ fle d0 z = true /\ flt (plain_predict z) d0 = true /\
  is_double s' /\ fle s s' = true /\ flt (plain_predict s') (plain_predict s) = true.
Proof. exists (dq 99999 (10 ^ 13)%positive), d0, e8. unfold in_band. repeat split; vm_compute; reflexivity. Qed.
Lemma sub_nneg c s : okd c -> 0 <= R c -> dbl s -> R c <= E s -> nneg (dsub s c) /\ E (dsub s c) = (if fin s then rnd64 (R s - R c) else BB).
Proof.
  intros [Vc Fc] P [V N] L. destruct s as [z|z| |z m e].
  - destruct c as [t|t| |t mc ec]; try discriminate Fc; [|exfalso; change (E (S754_zero z)) with (R (S754_zero z)) in L; change (R (S754_zero z)) with 0 in L; assert (Q : isz (S754_finite t mc ec)) by (apply R_zero_isz; [split; assumption|lra]); destruct Q; discriminate].
    assert (Q : R (S754_zero z) - R (S754_zero t) = 0) by (change (0 - 0 = 0); lra). rewrite Q. destruct z, t; (split; [split; [split; [reflexivity|discriminate]|]; change (0 <= 0); lra|cbn [fin]; rewrite rnd_0; reflexivity]).
  - destruct z; [exfalso; cbn [E] in L; pose proof BB_pos; lra|]. assert (Q : dsub (S754_infinity false) c = S754_infinity false) by (destruct c as [t|t| |t mc ec]; try discriminate Fc; destruct t; reflexivity). rewrite Q. split; [split; [split; [reflexivity|discriminate]|cbn [E]; pose proof BB_pos; lra]|reflexivity].
  - congruence.
  - assert (O : okd (S754_finite z m e)) by (split; [exact V|reflexivity]). rewrite (E_fin _ (proj2 O)) in L. set (s := S754_finite z m e) in *. assert (FS : fin s = true) by reflexivity. clearbody s. rewrite FS.
    assert (B : 0 <= rnd64 (R s - R c) <= R s). { split; [apply rnd_pos; lra|]. rewrite <- (rnd_id s O) at 2. apply (rnd_le 53 1024). lra. } pose proof (E_bound _ O) as EB. rewrite (E_fin _ FS) in EB. rewrite BB_eq in EB.
    destruct (sub_R 53 1024 s c V Vc FS Fc) as (A1 & A2 & A3); [rewrite Rabs_pos_eq by lra; lra|]. fold (dsub s c) in *. split; [split; [apply okd_dbl; split; assumption|]|]; rewrite (E_fin _ A2), A1; lra.
Qed.
Definition ramp (c k d s : sf) : sf := ddiv (dmul (dsub s c) k) d.
Lemma ramp_mono c k d s s' a b a' b' : okd c -> 0 <= R c -> bnd a b k -> bnd a' b' d -> dbl s -> dbl s' -> R c <= E s -> E s <= E s' -> nneg (ramp c k d s) /\ nneg (ramp c k d s') /\ E (ramp c k d s) <= E (ramp c k d s').
Proof.
  intros OC PC K D S S' L M. destruct (sub_nneg c s OC PC S L) as [N1 Q1]. destruct (sub_nneg c s' OC PC S' ltac:(lra)) as [N2 Q2].
  assert (SM : E (dsub s c) <= E (dsub s' c)). { destruct (fin s') eqn:F'; [|rewrite Q2; destruct N1 as [[V1 NN] _]; destruct (dsub s c) as [z|[]| |z m e] eqn:DD; [pose proof BB_pos; change (0 <= BB); lra|cbn [E]; pose proof BB_pos; lra|cbn [E]; lra|congruence|apply Rlt_le, E_bound; split; [exact V1|reflexivity]]].
    rewrite Q2. destruct (fin s) eqn:F; [rewrite Q1; apply (rnd_le 53 1024); rewrite (E_fin _ F), (E_fin _ F') in M; lra|]. exfalso. pose proof (E_bound s' (conj (proj1 S') F')) as EB. pose proof BB_pos. destruct S as [VS NS]. destruct s as [z|[]| |z m e]; try discriminate F; try congruence; cbn [E] in *; lra. }
  unfold ramp. pose proof (proj2 (nneg_mul _ _ _ _ K N1)) as M1. pose proof (proj2 (nneg_mul _ _ _ _ K N2)) as M2. pose proof (nneg_mul_mono_r _ _ _ _ _ K N1 N2 SM) as MM. split; [eapply nneg_div; eassumption|]. split; [eapply nneg_div; eassumption|]. eapply nneg_div_mono; eassumption.
Qed.
(** the largest double below 1e-7 *)
Definition p7 : sf := S754_finite false 7555786372591431 (-76).
Lemma e7_lit : e7 = S754_finite false 7555786372591432 (-76). Proof. vm_compute. reflexivity. Qed.
Lemma e7_R : R e7 = 7555786372591432 * b2 (-76). Proof. rewrite e7_lit, fin_R. reflexivity. Qed.
Lemma p7_R : R p7 = 7555786372591431 * b2 (-76). Proof. unfold p7. rewrite fin_R. reflexivity. Qed.
Lemma pred_e7 : pred radix2 (SpecFloat.fexp 53 1024) (R e7) = R p7.
Proof.
  rewrite e7_R, p7_R. pose proof (bpow_gt_0 radix2 (-76)) as P. assert (B1 : b2 (-24) = 4503599627370496 * b2 (-76)) by (change (-24)%Z with (52 + -76)%Z; rewrite bpow_plus; reflexivity). assert (B2 : b2 (-23) = 9007199254740992 * b2 (-76)) by (change (-23)%Z with (53 + -76)%Z; rewrite bpow_plus; reflexivity).
  set (x := 7555786372591432 * b2 (-76)). assert (M : mag radix2 x = (-23)%Z :> Z). { apply mag_unique_pos. change (-23 - 1)%Z with (-24)%Z. unfold x. lra. }
  rewrite pred_eq_pos by (unfold x; lra). unfold pred_pos. rewrite M. change (-23 - 1)%Z with (-24)%Z. rewrite Req_bool_false by (unfold x; lra). rewrite ulp_neq_0 by (unfold x; lra). unfold cexp. rewrite M. change (SpecFloat.fexp 53 1024 (-23)) with (-76)%Z. unfold x. lra.
Qed.
Lemma e7_ok : okd e7. Proof. split; vm_compute; reflexivity. Qed.
Lemma p7_ok : okd p7. Proof. split; reflexivity. Qed.
Lemma fmt x : okd x -> generic_format radix2 (SpecFloat.fexp 53 1024) (R x).
Proof. intros [V F]. rewrite <- (lift_R 53 1024 x V). apply generic_format_B2R. Qed.
Lemma below_e7 s : dbl s -> E s < E e7 -> E s <= E p7.
Proof.
  intros [V N] L. pose proof (E_bound _ e7_ok) as B7. pose proof (E_bound _ p7_ok) as B8. destruct (fin s) eqn:F.
  - rewrite (E_fin _ F), (E_fin _ (proj2 e7_ok)) in L. rewrite (E_fin _ F), (E_fin _ (proj2 p7_ok)), <- pred_e7. apply pred_ge_gt; [apply fexp_correct; reflexivity|apply fmt; split; assumption|apply fmt, e7_ok|exact L].
  - destruct s as [z|[]| |z m e]; try discriminate F; try congruence; cbn [E] in *; lra.
Qed.
Lemma plain_cases s : plain_predict s = if flt s e8 then dadd (dq 1 100) (ramp e9 (dofZ 4) (dq 9 (10 ^ 9)%positive) s)
  else if flt s e7 then dadd (dq 5 100) (ramp e8 (dq 10 100) (dq 9 (10 ^ 8)%positive) s)
  else if flt s e6 then dadd (dq 15 100) (ramp e7 (dq 15 100) (dq 9 (10 ^ 7)%positive) s)
  else dadd (dq 30 100) (fmin (dq 60 100) (ramp e6 (dq 60 100) (dq 9 (10 ^ 6)%positive) s)).
Proof. reflexivity. Qed.
Lemma lit_okd x : litb (-100) 100 x = true -> okd x /\ 0 <= R x. Proof. intros H. apply lit_bnd in H. split; [apply H|]. apply Rlt_le, (bnd_pos _ _ _ H). Qed.
(** one band: a base plus a ramp *)
Lemma band_mono l c k d s s' : litb (-100) 100 l = true -> litb (-100) 100 c = true -> litb (-100) 100 k = true -> litb (-100) 100 d = true -> dbl s -> dbl s' -> E c <= E s -> E s <= E s' ->
  dbl (dadd l (ramp c k d s)) /\ dbl (dadd l (ramp c k d s')) /\ E (dadd l (ramp c k d s)) <= E (dadd l (ramp c k d s')).
Proof.
  intros L C K D S S' A B. apply lit_okd in L, C. apply lit_bnd in K, D. destruct C as [OC PC]. destruct L as [OL PL]. rewrite (E_fin _ (proj2 OC)) in A. destruct (ramp_mono c k d s s' _ _ _ _ OC PC K D S S' A B) as (N1 & N2 & M). assert (NL : nneg l) by (apply nneg_okd; assumption).
  split; [apply (proj1 (nneg_add _ _ NL N1))|]. split; [apply (proj1 (nneg_add _ _ NL N2))|]. apply add_mono; try assumption. lra.
Qed.
Lemma top_mono l m c k d s s' : litb (-100) 100 l = true -> litb (-100) 100 m = true -> litb (-100) 100 c = true -> litb (-100) 100 k = true -> litb (-100) 100 d = true -> dbl s -> dbl s' -> E c <= E s -> E s <= E s' ->
  dbl (dadd l (fmin m (ramp c k d s))) /\ dbl (dadd l (fmin m (ramp c k d s'))) /\ E (dadd l (fmin m (ramp c k d s))) <= E (dadd l (fmin m (ramp c k d s'))).
Proof.
  intros L MM C K D S S' A B. apply lit_okd in L, C, MM. apply lit_bnd in K, D. destruct C as [OC PC]. destruct L as [OL PL]. destruct MM as [OM PM]. rewrite (E_fin _ (proj2 OC)) in A. destruct (ramp_mono c k d s s' _ _ _ _ OC PC K D S S' A B) as (N1 & N2 & M). assert (NL : nneg l) by (apply nneg_okd; assumption).
  pose proof (min_mono m _ _ OM PM N1 N2 M) as Q. destruct (min_nn m (ramp c k d s) OM PM (or_intror N1)) as [O1 P1]. destruct (min_nn m (ramp c k d s') OM PM (or_intror N2)) as [O2 P2]. assert (Z1 : nneg (fmin m (ramp c k d s))) by (apply nneg_okd; [exact O1|lra]). assert (Z2 : nneg (fmin m (ramp c k d s'))) by (apply nneg_okd; [exact O2|lra]).
  split; [apply (proj1 (nneg_add _ _ NL Z1))|]. split; [apply (proj1 (nneg_add _ _ NL Z2))|]. apply add_mono; try assumption; [lra|]. rewrite (E_fin _ (proj2 O1)), (E_fin _ (proj2 O2)). exact Q.
Qed.
Lemma fle_nn x y : fle x y = true -> x <> S754_nan /\ y <> S754_nan.
Proof. destruct x, y; split; intros Q; discriminate. Qed.
Lemma lit_dbl x : litb (-100) 100 x = true -> dbl x. Proof. intros H. apply okd_dbl, (lit_okd _ H). Qed.
Lemma ltF x y : dbl x -> dbl y -> (flt x y = false <-> E y <= E x).
Proof. intros X Y. split; intros H; [apply Rnot_lt_le; intros Q; apply (ltE _ _ X Y) in Q; congruence|]. destruct (flt x y) eqn:Q; [apply (ltE _ _ X Y) in Q; lra|reflexivity]. Qed.
Ltac lit := vm_compute; reflexivity.
Lemma e_order : E e9 <= E e8 /\ E e8 <= E p7 /\ E p7 <= E e7 /\ E e7 <= E e6.
Proof. split; [apply leE; [apply lit_dbl; lit|apply lit_dbl; lit|lit]|]. split; [apply leE; [apply lit_dbl; lit|apply lit_dbl; lit|lit]|]. split; (apply leE; [apply lit_dbl; lit|apply lit_dbl; lit|lit]). Qed.
Lemma inf_dbl : dbl (S754_infinity false). Proof. split; [reflexivity|discriminate]. Qed.
Lemma inf_top s : dbl s -> E s <= E (S754_infinity false).
Proof. intros [V N]. cbn [E]. destruct (fin s) eqn:F; [apply Rlt_le, E_bound; split; assumption|]. pose proof BB_pos. destruct s as [z|[]| |z m e]; try discriminate F; try congruence; cbn [E]; lra. Qed.
(** the bands, as facts about the three branches *)
Lemma band2 s : dbl s -> E e8 <= E s -> E s < E e7 -> dbl (plain_predict s) /\ E (dq 5 100) <= E (plain_predict s) <= E (dq 15 100).
Proof.
  intros D A B. pose proof e_order as Q. assert (DE8 : dbl e8) by (apply lit_dbl; lit). assert (DE7 : dbl e7) by (apply lit_dbl; lit). pose proof (below_e7 s D B) as BP. rewrite plain_cases. rewrite (proj2 (ltF s e8 D DE8) A), (proj2 (ltE s e7 D DE7) B).
  destruct (band_mono (dq 5 100) e8 (dq 10 100) (dq 9 (10 ^ 8)%positive) e8 s ltac:(lit) ltac:(lit) ltac:(lit) ltac:(lit) DE8 D ltac:(lra) A) as (_ & D1 & L1). destruct (band_mono (dq 5 100) e8 (dq 10 100) (dq 9 (10 ^ 8)%positive) s p7 ltac:(lit) ltac:(lit) ltac:(lit) ltac:(lit) D (okd_dbl _ p7_ok) A BP) as (_ & _ & L2).
  assert (X1 : dadd (dq 5 100) (ramp e8 (dq 10 100) (dq 9 (10 ^ 8)%positive) e8) = dq 5 100) by lit. assert (X2 : fle (dadd (dq 5 100) (ramp e8 (dq 10 100) (dq 9 (10 ^ 8)%positive) p7)) (dq 15 100) = true) by lit. rewrite X1 in L1. assert (X3 : E (dadd (dq 5 100) (ramp e8 (dq 10 100) (dq 9 (10 ^ 8)%positive) p7)) <= E (dq 15 100)) by (apply leE; [apply lit_dbl; lit|apply lit_dbl; lit|exact X2]). split; [exact D1|]. split; [exact L1|]. eapply Rle_trans; [exact L2|exact X3].
Qed.
Lemma band3 s : dbl s -> E e7 <= E s -> E s < E e6 -> dbl (plain_predict s) /\ E (dq 15 100) <= E (plain_predict s) <= E (dq 30 100).
Proof.
  intros D A B. pose proof e_order as Q. assert (DE8 : dbl e8) by (apply lit_dbl; lit). assert (DE7 : dbl e7) by (apply lit_dbl; lit). assert (DE6 : dbl e6) by (apply lit_dbl; lit). rewrite plain_cases. rewrite (proj2 (ltF s e8 D DE8) ltac:(lra)), (proj2 (ltF s e7 D DE7) A), (proj2 (ltE s e6 D DE6) B).
  destruct (band_mono (dq 15 100) e7 (dq 15 100) (dq 9 (10 ^ 7)%positive) e7 s ltac:(lit) ltac:(lit) ltac:(lit) ltac:(lit) DE7 D ltac:(lra) A) as (_ & D1 & L1). destruct (band_mono (dq 15 100) e7 (dq 15 100) (dq 9 (10 ^ 7)%positive) s e6 ltac:(lit) ltac:(lit) ltac:(lit) ltac:(lit) D DE6 A ltac:(lra)) as (_ & _ & L2).
  assert (X1 : dadd (dq 15 100) (ramp e7 (dq 15 100) (dq 9 (10 ^ 7)%positive) e7) = dq 15 100) by lit. assert (X2 : fle (dadd (dq 15 100) (ramp e7 (dq 15 100) (dq 9 (10 ^ 7)%positive) e6)) (dq 30 100) = true) by lit. rewrite X1 in L1. assert (X3 : E (dadd (dq 15 100) (ramp e7 (dq 15 100) (dq 9 (10 ^ 7)%positive) e6)) <= E (dq 30 100)) by (apply leE; [apply lit_dbl; lit|apply lit_dbl; lit|exact X2]). split; [exact D1|]. split; [exact L1|]. eapply Rle_trans; [exact L2|exact X3].
Qed.
Lemma band4 s : dbl s -> E e6 <= E s -> dbl (plain_predict s) /\ E (dq 30 100) <= E (plain_predict s) <= E (dq 90 100).
Proof.
  intros D A. pose proof e_order as Q. assert (DE8 : dbl e8) by (apply lit_dbl; lit). assert (DE7 : dbl e7) by (apply lit_dbl; lit). assert (DE6 : dbl e6) by (apply lit_dbl; lit). rewrite plain_cases. rewrite (proj2 (ltF s e8 D DE8) ltac:(lra)), (proj2 (ltF s e7 D DE7) ltac:(lra)), (proj2 (ltF s e6 D DE6) A).
  destruct (top_mono (dq 30 100) (dq 60 100) e6 (dq 60 100) (dq 9 (10 ^ 6)%positive) e6 s ltac:(lit) ltac:(lit) ltac:(lit) ltac:(lit) ltac:(lit) DE6 D ltac:(lra) A) as (_ & D1 & L1). destruct (top_mono (dq 30 100) (dq 60 100) e6 (dq 60 100) (dq 9 (10 ^ 6)%positive) s (S754_infinity false) ltac:(lit) ltac:(lit) ltac:(lit) ltac:(lit) ltac:(lit) D inf_dbl A (inf_top s D)) as (_ & _ & L2).
  assert (X1 : dadd (dq 30 100) (fmin (dq 60 100) (ramp e6 (dq 60 100) (dq 9 (10 ^ 6)%positive) e6)) = dq 30 100) by lit. assert (X2 : fle (dadd (dq 30 100) (fmin (dq 60 100) (ramp e6 (dq 60 100) (dq 9 (10 ^ 6)%positive) (S754_infinity false)))) (dq 90 100) = true) by lit. rewrite X1 in L1. assert (X3 : E (dadd (dq 30 100) (fmin (dq 60 100) (ramp e6 (dq 60 100) (dq 9 (10 ^ 6)%positive) (S754_infinity false)))) <= E (dq 90 100)) by (apply leE; [apply lit_dbl; lit|apply lit_dbl; lit|exact X2]). split; [exact D1|]. split; [exact L1|]. eapply Rle_trans; [exact L2|exact X3].
Qed.
Lemma within_E a b x : dbl a -> dbl b -> dbl x -> E a <= E x <= E b -> within a b x. Proof. intros A B X [L M]. split; apply leE; assumption. Qed.
(** from 1e-8 up every documented band is kept and the answer never falls as the rate rises; from 1e-9 to 1e-8 it is at least 0.01 and never
    falls.  A NaN is answered like an infinite rate. *)
Theorem C465_bands_partial :
  (forall s, is_double s -> in_band e8 e7 s -> within (dq 5 100) (dq 15 100) (plain_predict s)) /\
  (forall s, is_double s -> in_band e7 e6 s -> within (dq 15 100) (dq 30 100) (plain_predict s)) /\
  (forall s, is_double s -> fle e6 s = true -> within (dq 30 100) (dq 90 100) (plain_predict s)) /\
  (forall s s', is_double s -> is_double s' -> fle e8 s = true -> fle s s' = true -> fle (plain_predict s) (plain_predict s') = true) /\
  (forall s s', is_double s -> is_double s' -> fle e9 s = true -> fle s s' = true -> flt s' e8 = true -> fle (dq 1 100) (plain_predict s) = true /\ fle (plain_predict s) (plain_predict s') = true) /\
  plain_predict S754_nan = plain_predict (S754_infinity false).
Proof.
  pose proof e_order as Q. assert (DE9 : dbl e9) by (apply lit_dbl; lit). assert (DE8 : dbl e8) by (apply lit_dbl; lit). assert (DE7 : dbl e7) by (apply lit_dbl; lit). assert (DE6 : dbl e6) by (apply lit_dbl; lit). assert (DN : forall a s, is_double s -> fle a s = true -> dbl s) by (intros a s V H; split; [exact V|exact (proj2 (fle_nn _ _ H))]).
  assert (D5 : dbl (dq 5 100)) by (apply lit_dbl; lit). assert (D15 : dbl (dq 15 100)) by (apply lit_dbl; lit). assert (D30 : dbl (dq 30 100)) by (apply lit_dbl; lit). assert (D90 : dbl (dq 90 100)) by (apply lit_dbl; lit). assert (D01 : dbl (dq 1 100)) by (apply lit_dbl; lit).
  split; [|split; [|split; [|split; [|split; [|lit]]]]].
  - intros s V [A B]. pose proof (DN _ _ V A) as D. apply (leE _ _ DE8 D) in A. apply (ltE _ _ D DE7) in B. destruct (band2 s D A B) as [P R]. apply within_E; assumption.
  - intros s V [A B]. pose proof (DN _ _ V A) as D. apply (leE _ _ DE7 D) in A. apply (ltE _ _ D DE6) in B. destruct (band3 s D A B) as [P R]. apply within_E; assumption.
  - intros s V A. pose proof (DN _ _ V A) as D. apply (leE _ _ DE6 D) in A. destruct (band4 s D A) as [P R]. apply within_E; assumption.
  - intros s s' V V' A B. pose proof (DN _ _ V A) as D. pose proof (DN _ _ V' B) as D'. apply (leE _ _ DE8 D) in A. apply (leE _ _ D D') in B.
    destruct (Rlt_or_le (E s) (E e7)) as [L7|G7]; [|destruct (Rlt_or_le (E s) (E e6)) as [L6|G6]].
    + destruct (band2 s D A L7) as [P R]. destruct (Rlt_or_le (E s') (E e7)) as [M7|H7]; [|destruct (Rlt_or_le (E s') (E e6)) as [M6|H6]].
      * destruct (band2 s' D' ltac:(lra) M7) as [P' _]. apply leE; [exact P|exact P'|]. rewrite !plain_cases, (proj2 (ltF s e8 D DE8) A), (proj2 (ltF s' e8 D' DE8) ltac:(lra)), (proj2 (ltE s e7 D DE7) L7), (proj2 (ltE s' e7 D' DE7) M7). apply (band_mono (dq 5 100) e8 (dq 10 100) (dq 9 (10 ^ 8)%positive) s s'); try lit; assumption.
      * destruct (band3 s' D' H7 M6) as [P' R']. apply leE; [exact P|exact P'|]. destruct R as [_ R]. destruct R' as [R' _]. eapply Rle_trans; eassumption.
      * destruct (band4 s' D' H6) as [P' R']. apply leE; [exact P|exact P'|]. destruct R as [_ R]. destruct R' as [R' _]. eapply Rle_trans; [exact R|]. eapply Rle_trans; [|exact R']. apply leE; [assumption|assumption|lit].
    + destruct (band3 s D G7 L6) as [P R]. destruct (Rlt_or_le (E s') (E e6)) as [M6|H6].
      * destruct (band3 s' D' ltac:(lra) M6) as [P' _]. apply leE; [exact P|exact P'|]. rewrite !plain_cases, (proj2 (ltF s e8 D DE8) A), (proj2 (ltF s' e8 D' DE8) ltac:(lra)), (proj2 (ltF s e7 D DE7) G7), (proj2 (ltF s' e7 D' DE7) ltac:(lra)), (proj2 (ltE s e6 D DE6) L6), (proj2 (ltE s' e6 D' DE6) M6). apply (band_mono (dq 15 100) e7 (dq 15 100) (dq 9 (10 ^ 7)%positive) s s'); try lit; assumption.
      * destruct (band4 s' D' H6) as [P' R']. apply leE; [exact P|exact P'|]. destruct R as [_ R]. destruct R' as [R' _]. eapply Rle_trans; eassumption.
    + destruct (band4 s D G6) as [P R]. destruct (band4 s' D' ltac:(lra)) as [P' _]. apply leE; [exact P|exact P'|]. rewrite !plain_cases, (proj2 (ltF s e8 D DE8) A), (proj2 (ltF s' e8 D' DE8) ltac:(lra)), (proj2 (ltF s e7 D DE7) ltac:(lra)), (proj2 (ltF s' e7 D' DE7) ltac:(lra)), (proj2 (ltF s e6 D DE6) G6), (proj2 (ltF s' e6 D' DE6) ltac:(lra)). apply (top_mono (dq 30 100) (dq 60 100) e6 (dq 60 100) (dq 9 (10 ^ 6)%positive) s s'); try lit; assumption.
  - intros s s' V V' A B C. pose proof (DN _ _ V A) as D. pose proof (DN _ _ V' B) as D'. apply (leE _ _ DE9 D) in A. apply (leE _ _ D D') in B. assert (C2 := C). apply (ltE _ _ D' DE8) in C. assert (CS : flt s e8 = true) by (apply ltE; [exact D|exact DE8|lra]). rewrite !plain_cases, C2, CS.
    destruct (band_mono (dq 1 100) e9 (dofZ 4) (dq 9 (10 ^ 9)%positive) e9 s ltac:(lit) ltac:(lit) ltac:(lit) ltac:(lit) DE9 D ltac:(lra) A) as (_ & P & L1). destruct (band_mono (dq 1 100) e9 (dofZ 4) (dq 9 (10 ^ 9)%positive) s s' ltac:(lit) ltac:(lit) ltac:(lit) ltac:(lit) D D' A B) as (_ & P' & L2). assert (X1 : dadd (dq 1 100) (ramp e9 (dofZ 4) (dq 9 (10 ^ 9)%positive) e9) = dq 1 100) by lit. rewrite X1 in L1. split; apply leE; assumption.
Qed.
Example C465_nonvacuous : in_band e8 e7 (dq 5 (10 ^ 8)%positive) /\ flt (plain_predict (dq 5 (10 ^ 8)%positive)) (plain_predict (dq 6 (10 ^ 8)%positive)) = true /\ fle e6 (S754_infinity false) = true /\ in_band e9 e8 (dq 2 (10 ^ 9)%positive) /\ flt (dq 89 100) (plain_predict d1) = true.
Proof. unfold in_band. repeat split; vm_compute; reflexivity. Qed.

Print Assumptions C462_predictions_in_range.
Print Assumptions C463_recovers_refuted.
Print Assumptions C463_levels_partial.
Print Assumptions C464_nothing_to_learn.
Print Assumptions C465_bands_refuted.
Print Assumptions C465_bands_partial.
