(** Comparing missions, places and shields; the law of solar activity. *)
From Coq Require Import List NArith ZArith Bool Arith Lia Reals Lra SpecFloat.
Import ListNotations.
From Flocq Require Import Core BinarySingleNaN.
From Verif Require Import Outcome Words Floats FloatsR HealthFloat RMA3_Proofs Tester3_Proofs Hw_Proofs Hw2_Proofs Qft_Model Qft_Spec Qft2_Proofs Qft4_Proofs Qft5_Proofs Qft6_Proofs Qer3_Proofs Env_Model EnvB_Spec Env3_Proofs Env4_Proofs Env5_Proofs Env6_Proofs Env7_Proofs.
Local Open Scope R_scope.

Lemma fR_refl f : fR f f. Proof. repeat split; lra. Qed.
Lemma fR_trans f g h : fR f g -> fR g h -> fR f h. Proof. intros (A & B & C & D) (A' & B' & C' & D'). repeat split; lra. Qed.
Lemma scale_mono a b c d j k k' f g : fnb a b c d f -> fnb a b c d g -> nb j k -> nb j k' -> (-900 <= a < 900)%Z -> (-900 <= b < 900)%Z -> (-900 <= c < 900)%Z -> (-900 <= d < 900)%Z -> (-20 <= j < 20)%Z -> fR f g -> R k <= R k' -> fR (fscale f k) (fscale g k').
Proof.
  intros (A & B & G & D) (A' & B' & G' & D') K K' ? ? ? ? ? (L1 & L2 & L3 & L4) L. unfold fR, fscale. cbn [electron proton ion dose].
  split; [apply (mul_mono a j)|split; [apply (mul_mono b j)|split; [apply (mul_mono c j)|apply (mul_mono d j)]]]; try assumption; lia.
Qed.
Lemma plus_mono a b c d f g f' g' : fnb a b c d f -> fnb a b c d g -> fnb a b c d f' -> fnb a b c d g' -> (-900 <= a < 900)%Z -> (-900 <= b < 900)%Z -> (-900 <= c < 900)%Z -> (-900 <= d < 900)%Z -> fR f f' -> fR g g' -> fR (fplus f g) (fplus f' g').
Proof.
  intros (A & B & G & D) (A' & B' & G' & D') (A1 & B1 & G1 & D1) (A2 & B2 & G2 & D2) ? ? ? ? (L1 & L2 & L3 & L4) (K1 & K2 & K3 & K4). unfold fR, fplus. cbn [electron proton ion dose].
  split; [apply (add_mono_nb a)|split; [apply (add_mono_nb b)|split; [apply (add_mono_nb c)|apply (add_mono_nb d)]]]; try assumption; lia.
Qed.
Section X.
Variables fexp fcos : sf -> sf.
Hypothesis X : exp_lib fexp.
Hypothesis C : unit_lib fcos.
Notation mf := (mission_flux fexp fcos).
Lemma probe_eq p : mf N_SOLAR_PROBE p = mf GEO p.
Proof. cbn [mission_flux]. assert (T : flt d1 (dq 3 10) = false) by (vm_compute; reflexivity). rewrite T. reflexivity. Qed.
Lemma k15 : nb 10 (dq 15 10) /\ nb 10 (dofZ 2) /\ nb 10 (dofZ 1000) /\ 1 <= R (dq 15 10) /\ R (dq 15 10) <= R (dofZ 2) /\ R (dofZ 2) <= R (dofZ 1000).
Proof.
  assert (A : nb 10 (dq 15 10)) by lnb 10%Z. assert (B : nb 10 (dofZ 2)) by lnb 10%Z. assert (D : nb 10 (dofZ 1000)) by lnb 10%Z. split; [exact A|split; [exact B|split; [exact D|]]]. split; [exact d15_1|].
  split; (apply le_lit; [apply A || apply B|apply B || apply D|vm_compute; reflexivity]).
Qed.
Lemma order_deep p : on_earth p -> fR (mf GEO p) (mf N_LUNAR p) /\ fR (mf N_LUNAR p) (mf N_MARS p) /\ fR (mf N_MARS p) (mf N_JUPITER p).
Proof.
  intros H. pose proof (gcr_ok p H) as G. destruct k15 as (A & B & D & L1 & L2 & L3). cbn [mission_flux]. split; [|split].
  - apply (fnb_scale 12 9 6 (-7) 10 (dq 15 10) _ G A); try lia. exact L1.
  - apply (scale_mono 12 9 6 (-7) 10); try assumption; try lia. apply fR_refl.
  - apply (scale_mono 12 9 6 (-7) 10); try assumption; try lia. apply fR_refl.
Qed.
Lemma order_earth p : on_earth p -> fR (mf GEO p) (mf MEO p) /\ fR (mf GEO p) (mf LEO_POLAR p).
Proof.
  intros H. pose proof (gcr_ok p H) as G. pose proof (va_ok fexp fcos X C p H) as V. pose proof (saa_ok fexp X p H) as S. cbn [mission_flux]. split.
  - apply (fnb_plus 19 19 10 0); try lia; [eapply fnb_weak; [exact G|lia..]|]. eapply fnb_weak; [apply (fnb_scale 17 17 8 (-3) 2); [exact V|lnb 2%Z|lia..]|lia..].
  - assert (G1 : fnb 17 17 8 (-3) (gcr_model p)) by (eapply fnb_weak; [exact G|lia..]). destruct (fnb_plus _ _ _ _ _ _ G1 V) as (F & L); try lia. eapply fR_trans; [exact L|].
    apply (fnb_plus 18 20 9 0); try lia; eapply fnb_weak; try exact F; try exact S; lia.
Qed.
(** without belts only latitude and altitude count, and both only raise the flux *)
Lemma place_mono m p q : beltless m = true -> on_earth p -> on_earth q -> Rabs (R (lat p)) <= Rabs (R (lat q)) -> E (alt p) <= E (alt q) -> fR (mf m p) (mf m q).
Proof.
  intros B H H' L L'. pose proof (gcr_mono p q H H' (factor_mono p q H H' L L')) as M. pose proof (gcr_ok p H) as G. pose proof (gcr_ok q H') as G'. destruct k15 as (A1 & A2 & A3 & _).
  destruct m; try discriminate B; rewrite ?probe_eq; cbn [mission_flux]; try exact M; apply (scale_mono 12 9 6 (-7) 10); try assumption; try lia; lra.
Qed.
Lemma gcr_lon p q : lat p = lat q -> alt p = alt q -> gcr_model p = gcr_model q /\ van_allen_model fexp fcos p = van_allen_model fexp fcos q.
Proof. intros A B. unfold gcr_model, gcr_factor, van_allen_model, getRadius. rewrite A, B. split; reflexivity. Qed.
Lemma leo_anomaly m p q : m = LEO_EQUATORIAL \/ m = LEO_POLAR -> on_earth p -> on_earth q -> lat p = lat q -> alt p = alt q -> 20 + / 100 < sqrt (saa_distance2 p) ->
  fR (mf m p) (mf m q) /\ (20 + / 100 < sqrt (saa_distance2 q) -> mf m p = mf m q).
Proof.
  intros M H H' La Al L. destruct (gcr_lon p q La Al) as (G & V). pose proof (saa_outside fexp p (oe_lat _ H) (oe_lon _ H) L) as S.
  assert (Q : mf m p = fplus (fplus (gcr_model q) (van_allen_model fexp fcos q)) flux0 /\ mf m q = fplus (fplus (gcr_model q) (van_allen_model fexp fcos q)) (saa_model fexp q)).
  { destruct M; subst; cbn [mission_flux]; rewrite G, V, S; split; reflexivity. }
  destruct Q as (Q1 & Q2). rewrite Q1, Q2. pose proof (saa_ok fexp X q H') as SQ.
  assert (F : fnb 20 20 20 20 (fplus (gcr_model q) (van_allen_model fexp fcos q))).
  { eapply fnb_weak; [apply (fnb_plus 17 17 8 (-3)); [eapply fnb_weak; [apply gcr_ok; exact H'|lia..]|apply va_ok; assumption|lia..]|lia..]. }
  split.
  - assert (Z : fnb 20 20 20 20 flux0) by exact (conj (nb0 _) (conj (nb0 _) (conj (nb0 _) (nb0 _)))). assert (SQ2 : fnb 20 20 20 20 (saa_model fexp q)) by (eapply fnb_weak; [exact SQ|lia..]).
    apply (plus_mono 20 20 20 20); try assumption; try lia; [apply fR_refl|]. destruct SQ as (E1 & E2 & E3 & E4). unfold fR, flux0. cbn [electron proton ion dose]. rewrite (proj2 z_ok). repeat split; [apply E1|apply E2|apply E3|apply E4].
  - intros L'. rewrite (saa_outside fexp q (oe_lat _ H') (oe_lon _ H') L'). reflexivity.
Qed.
(** ** shields *)
Lemma att_part k t t' a b : lib_mono fexp -> bnd a b k -> nneg t -> nneg t' -> E t <= E t' -> R (fexp (dmul (SFopp k) t')) <= R (fexp (dmul (SFopp k) t)).
Proof.
  intros LM B N N' L. destruct (att_neg a b k t B N) as (D & ?). destruct (att_neg a b k t' B N') as (D' & ?). pose proof (att_mono a b k t t' B N N' L) as M.
  assert (F : fle (dmul (SFopp k) t') (dmul (SFopp k) t) = true) by (apply (leE _ _ D' D); exact M). apply (LM _ _ (proj1 D') (proj1 D)) in F.
  assert (O : inr 0 1 (fexp (dmul (SFopp k) t))) by (apply (neg_exp fexp X); split; assumption). assert (O' : inr 0 1 (fexp (dmul (SFopp k) t'))) by (apply (neg_exp fexp X); split; assumption).
  apply (fle_d _ _ (proj1 O') (proj1 O)) in F. exact F.
Qed.
Lemma thicker r t t' m : lib_mono fexp -> nneg t -> nneg t' -> E t <= E t' -> parts_le (setShielding fexp r t' m) (setShielding fexp r t m).
Proof.
  intros LM N N' L. unfold setShielding, updateShielding, parts_le. cbn [r_mat r_thick r_mission r_solar r_decay]. destruct (att_bnd m) as (A & B & D). destruct (attenuation m) as ((x & y) & z). cbn [fst snd] in *. cbn [r_e r_p r_h].
  split; [|split]; eapply att_part; eassumption.
Qed.

(** ** solar activity *)
Lemma rnd_abs28 t : -268435456 <= t <= 268435456 -> t - / 1000000 <= rnd64 t <= t + / 1000000.
Proof.
  assert (P : forall t, 0 <= t <= 268435456 -> t - / 1000000 <= rnd64 t <= t + / 1000000).
  { intros u B. destruct (Rle_or_lt (/ 1048576) u) as [L|G].
    - pose proof (rnd_near u (small_normal u L)) as H. unfold u12 in H. lra.
    - pose proof (rnd64_abs u ltac:(lra)). lra. }
  intros B. destruct (Rle_or_lt 0 t); [apply P; lra|]. pose proof (P (- t) ltac:(lra)) as H0. rewrite rnd_opp in H0. lra.
Qed.
Lemma rnd_abs16 t : 0 <= t <= 16 -> t - / 50000000000000 <= rnd64 t <= t + / 50000000000000.
Proof.
  intros B. destruct (Rle_or_lt (/ 1048576) t) as [L|G].
  - pose proof (rnd_near t (small_normal t L)) as H. unfold u12 in H. lra.
  - pose proof (rnd64_abs t ltac:(lra)). lra.
Qed.
Definition tiny : Rdefinitions.R := / 10000000000000.
Lemma gfac_law a : inr 0 1 a -> 1 - 3 / 10 * R a - tiny <= R (gfac a) <= 1 - 3 / 10 * R a + tiny /\ 69 / 100 <= R (gfac a) <= 1.
Proof.
  intros A. destruct (tf_range a A) as (_ & T). split; [|exact T]. destruct A as (O & B). destruct three_tenth_dec as (O3 & E3). apply Rabs_le_inv in E3.
  assert (M : 0 <= R (dq 3 10) * R a <= 1) by nra. destruct (mul_d (dq 3 10) a O3 O) as (Om & Rm); [unfold mid; lra|]. pose proof (rnd_abs16 _ ltac:(split; [apply M|lra]) ) as Em. rewrite <- Rm in Em. pose proof (Qft6_Proofs.rnd_int 0 1 _ ltac:(lia) ltac:(lia) M) as Bm. rewrite <- Rm in Bm.
  destruct (sub_d d1 (dmul (dq 3 10) a) (proj1 o_ok) Om) as (Os & Rs); [rewrite (proj2 o_ok); unfold mid; lra|]. rewrite (proj2 o_ok) in Rs. pose proof (rnd_abs16 (1 - R (dmul (dq 3 10) a)) ltac:(lra)) as Es. rewrite <- Rs in Es.
  assert (K : Rabs (R (dq 3 10) * R a - 3 / 10 * R a) <= / 1000000000000000). { replace (R (dq 3 10) * R a - 3 / 10 * R a) with ((R (dq 3 10) - 3 / 10) * R a) by ring. rewrite Rabs_mult, (Rabs_pos_eq (R a)) by lra. assert (Rabs (R (dq 3 10) - 3 / 10) <= / 1000000000000000) by (apply Rabs_le; lra). pose proof (Rabs_pos (R (dq 3 10) - 3 / 10)). nra. }
  apply Rabs_le_inv in K. fold (gfac a) in *. unfold tiny. lra.
Qed.
Lemma sfac_law a : inr 0 1 a -> 1 + 10 * R a - tiny <= R (sfac a) <= 1 + 10 * R a + tiny /\ 1 <= R (sfac a) <= 12.
Proof.
  intros A. destruct (sfac_ok a A) as (_ & L & U). destruct A as (O & B). split; [|lra]. destruct d10 as (Ot & Rt).
  destruct (mul_d (dofZ 10) a Ot O) as (Om & Rm); [rewrite Rt; unfold mid; lra|]. rewrite Rt in Rm. pose proof (rnd_abs16 (10 * R a) ltac:(lra)) as Em. pose proof (Qft6_Proofs.rnd_int 0 10 (10 * R a) ltac:(lia) ltac:(lia) ltac:(lra)) as Bm. rewrite <- Rm in *.
  destruct (add_d d1 (dmul (dofZ 10) a) (proj1 o_ok) Om) as (Oa & Ra); [rewrite (proj2 o_ok); unfold mid; lra|]. rewrite (proj2 o_ok) in Ra. pose proof (rnd_abs16 (1 + R (dmul (dofZ 10) a)) ltac:(lra)) as Ea. rewrite <- Ra in Ea.
  fold (sfac a) in *. unfold tiny. lra.
Qed.
Lemma prod_err e x v : nb 22 e -> v - tiny <= x <= v + tiny -> 0 <= v <= 12 -> R e * v - / 1000000 <= R e * x <= R e * v + / 1000000.
Proof. intros (_ & B) H V. change (b2 22) with 4194304 in B. unfold tiny in H. assert (Rabs (R e * (x - v)) <= / 1000000). { rewrite Rabs_mult, (Rabs_pos_eq (R e)) by lra. assert (Rabs (x - v) <= / 10000000000000) by (apply Rabs_le; lra). pose proof (Rabs_pos (x - v)). nra. } apply Rabs_le_inv in H0. lra. Qed.
Definition near5 (x v : Rdefinitions.R) : Prop := v - / 100000 <= x <= v + / 100000.
Lemma mul_law e y v : nb 22 e -> nb 4 y -> v - tiny <= R y <= v + tiny -> 0 <= v <= 12 -> R e * v - 2 / 1000000 <= R (dmul e y) <= R e * v + 2 / 1000000.
Proof.
  intros E Y H V. destruct (nb_mul _ _ _ _ E Y ltac:(lia)) as (_ & Q). rewrite Q. pose proof (prod_err e (R y) v E H V) as P. destruct E as (_ & B). change (b2 22) with 4194304 in B.
  assert (0 <= R e * v <= 100000000) by nra. pose proof (rnd_abs28 (R e * R y) ltac:(lra)). lra.
Qed.
Lemma solar_e_law a e : inr 0 1 a -> nb 22 e -> near5 (R (solar_e a e)) (R e * (15 / 10 + 47 / 10 * R a)).
Proof.
  intros A E. destruct (gfac_law a A) as (G & _). destruct (sfac_law a A) as (S & _). pose proof (proj1 (sfac_ok a A)) as NS. assert (NG : nb 4 (gfac a)) by (apply (nb_weak 0); [apply gfac_nb; exact A|lia]). assert (Ba : 0 <= R a <= 1) by apply A.
  pose proof (mul_law e (gfac a) _ E NG G ltac:(lra)) as P1. pose proof (mul_law e (sfac a) _ E NS S ltac:(lra)) as P2. pose proof (proj1 (nb_mul _ _ _ _ E NS ltac:(lia))) as N2. pose proof (proj1 (nb_mul _ _ _ _ E NG ltac:(lia))) as N1.
  destruct (nb_mul _ _ _ _ N2 d5 ltac:(lia)) as (N3 & Q3). assert (H5 : R (dq 5 10) = / 2) by (vm_compute; lra). rewrite H5 in Q3. assert (B2 : 0 <= R (dmul e (sfac a)) <= b2 26) by apply N2. change (b2 26) with 67108864 in B2.
  pose proof (rnd_abs28 (R (dmul e (sfac a)) * / 2) ltac:(lra)) as E3. rewrite <- Q3 in E3. destruct (nb_add 26 _ _ N1 N3 ltac:(lia)) as (_ & Q4). fold (solar_e a e) in Q4. assert (B1 : 0 <= R (dmul e (gfac a)) <= b2 26) by apply N1. change (b2 26) with 67108864 in B1.
  pose proof (rnd_abs28 (R (dmul e (gfac a)) + R (dmul (dmul e (sfac a)) (dq 5 10))) ltac:(lra)) as E4. rewrite <- Q4 in E4. unfold near5. lra.
Qed.
Lemma solar_p_law a e : inr 0 1 a -> nb 22 e -> near5 (R (solar_p a e)) (R e * (2 + 97 / 10 * R a)).
Proof.
  intros A E. destruct (gfac_law a A) as (G & _). destruct (sfac_law a A) as (S & _). pose proof (proj1 (sfac_ok a A)) as NS. assert (NG : nb 4 (gfac a)) by (apply (nb_weak 0); [apply gfac_nb; exact A|lia]). assert (Ba : 0 <= R a <= 1) by apply A.
  pose proof (mul_law e (gfac a) _ E NG G ltac:(lra)) as P1. pose proof (mul_law e (sfac a) _ E NS S ltac:(lra)) as P2. pose proof (proj1 (nb_mul _ _ _ _ E NS ltac:(lia))) as N2. pose proof (proj1 (nb_mul _ _ _ _ E NG ltac:(lia))) as N1.
  destruct (nb_add 26 _ _ N1 N2 ltac:(lia)) as (_ & Q4). fold (solar_p a e) in Q4. assert (B1 : 0 <= R (dmul e (gfac a)) <= b2 26) by apply N1. change (b2 26) with 67108864 in B1. assert (B2 : 0 <= R (dmul e (sfac a)) <= b2 26) by apply N2. change (b2 26) with 67108864 in B2.
  pose proof (rnd_abs28 (R (dmul e (gfac a)) + R (dmul e (sfac a))) ltac:(lra)) as E4. rewrite <- Q4 in E4. unfold near5. lra.
Qed.
Lemma ion_law a e : inr 0 1 a -> nb 16 e -> near5 (R (dmul e (gfac a))) (R e * (1 - 3 / 10 * R a)).
Proof.
  intros A E. destruct (gfac_law a A) as (G & _). assert (NG : nb 4 (gfac a)) by (apply (nb_weak 0); [apply gfac_nb; exact A|lia]). assert (Ba : 0 <= R a <= 1) by apply A. assert (E2 : nb 22 e) by (apply (nb_weak 16); [exact E|lia]).
  pose proof (mul_law e (gfac a) _ E2 NG G ltac:(lra)) as P1. unfold near5. lra.
Qed.
Lemma shield_law k x u c : inr 0 1 k -> nb 27 x -> near5 (R x) (u * c) -> Rabs (R (dmul x k) - R k * u * c) <= 2 / 100000.
Proof.
  intros (Ok & Bk) (Ox & Bx) H. assert (N : nb 27 x) by (split; assumption). assert (NK : nb 0 k) by (apply inr1_nb; split; assumption). destruct (nb_mul _ _ _ _ N NK ltac:(lia)) as (_ & Q). change (b2 27) with 134217728 in Bx.
  assert (0 <= R x * R k <= 134217728) by nra. pose proof (rnd_abs28 (R x * R k) ltac:(lra)) as E1. rewrite <- Q in E1. unfold near5 in H.
  assert (D : Rabs ((R x - u * c) * R k) <= / 100000). { rewrite Rabs_mult, (Rabs_pos_eq (R k)) by lra. assert (Rabs (R x - u * c) <= / 100000) by (apply Rabs_le; lra). pose proof (Rabs_pos (R x - u * c)). nra. } apply Rabs_le_inv in D. apply Rabs_le. lra.
Qed.
(** what a flux at activity [a] has to do with the flux at activity zero *)
Lemma two_laws x0 xa ku c0 ca : Rabs (x0 - ku * c0) <= 2 / 100000 -> Rabs (xa - ku * ca) <= 2 / 100000 -> 0 <= c0 <= 12 -> 0 <= ca <= 12 -> Rabs (xa * c0 - x0 * ca) <= / 1000.
Proof.
  intros A B C0 CA. replace (xa * c0 - x0 * ca) with ((xa - ku * ca) * c0 - (x0 - ku * c0) * ca) by ring. eapply Rle_trans; [apply Rabs_triang|]. rewrite Rabs_Ropp, !Rabs_mult, (Rabs_pos_eq c0), (Rabs_pos_eq ca) by lra.
  pose proof (Rabs_pos (xa - ku * ca)). pose proof (Rabs_pos (x0 - ku * c0)). nra.
Qed.
End X.
