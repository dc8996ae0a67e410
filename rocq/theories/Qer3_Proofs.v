(** Sums and products of numbers that are not negative, with overflow; decoherence; displacement energies; cascades; device sensitivity. *)
From Coq Require Import List NArith ZArith Bool Arith Lia Reals Lra SpecFloat.
Import ListNotations.
From Flocq Require Import Core BinarySingleNaN.
From Verif Require Import Outcome Words Floats FloatsR HealthFloat Bits_Model RMA3_Proofs Tester3_Proofs Hw_Proofs Hw2_Proofs Qft_Model Qft_Spec Qft2_Proofs Qft4_Proofs Qft5_Proofs Qft6_Proofs Qft7_Proofs Qft8_Proofs Qft9_Proofs Qer_Spec Qer_Proofs Qer2_Proofs.
Local Open Scope R_scope.

Lemma pos_sign x (V : V64 x = true) : fin x = true -> 0 < R x -> Bsign (lift 53 1024 x V) = false.
Proof.
  intros F P. destruct x as [s|s| |s m e]; try discriminate F; [unfold R in P; cbn in P; lra|]. destruct s; [|reflexivity]. exfalso. rewrite fin_R in P. cbn [cond_Zopp] in P. pose proof (bpow_gt_0 radix2 e). assert (IZR (- Z.pos m) < 0) by (apply IZR_lt; lia). nra.
Qed.
Lemma rnd_BB : rnd64 BB = BB.
Proof. rewrite BB_eq. apply round_generic; [apply valid_rnd_N|]. apply generic_format_bpow. unfold SpecFloat.fexp, emin. lia. Qed.
Lemma add_fin x y : okd x -> okd y -> 0 <= R x -> 0 <= R y -> dbl (dadd x y) /\ E (dadd x y) = Rmin BB (rnd64 (R x + R y)).
Proof.
  intros [Vx Fx] [Vy Fy] Px Py. assert (P : 0 <= rnd64 (R x + R y)) by (apply rnd_pos; lra). destruct (Rlt_or_le (rnd64 (R x + R y)) BB) as [L|G].
  - assert (A : Rabs (rnd64 (R x + R y)) < bpow radix2 1024) by (rewrite <- BB_eq, Rabs_pos_eq by exact P; exact L). destruct (add_R 53 1024 x y Vx Vy Fx Fy A) as (H1 & H2 & H3). split; [apply okd_dbl; split; assumption|]. unfold dadd. rewrite (E_fin _ H2), H1. symmetry. apply Rmin_right. lra.
  - pose proof (Bplus_correct 53 1024 _ _ mode_NE (lift 53 1024 x Vx) (lift 53 1024 y Vy)) as H. rewrite !lift_fin, !lift_R in H. specialize (H Fx Fy). rewrite <- BB_eq in H. rewrite Rlt_bool_false in H by (rewrite Rabs_pos_eq by exact P; exact G). destruct H as [H1 H2].
    assert (PX : 0 < R x). { destruct Px as [Q|Q]; [exact Q|]. rewrite <- Q, Rplus_0_l, (rnd_R 53 1024 y Vy) in G. pose proof (E_bound y (conj Vy Fy)) as EB. rewrite (E_fin y Fy) in EB. lra. }
    pose proof (add_equiv 53 1024 (lift 53 1024 x Vx) (lift 53 1024 y Vy)) as Q. rewrite !lift_sf in Q. unfold dadd. rewrite Q, H1, (pos_sign x Vx Fx PX). unfold binary_overflow. cbn [overflow_to_inf negb]. split; [split; [reflexivity|discriminate]|]. cbn [E]. symmetry. apply Rmin_left. exact G.
Qed.
Lemma nneg_add x y : nneg x -> nneg y -> nneg (dadd x y) /\ E (dadd x y) = Rmin BB (rnd64 (E x + E y)).
Proof.
  intros Nx Ny. pose proof BB_pos as BP. assert (BIG : forall t, 0 <= t -> Rmin BB (rnd64 (BB + t)) = BB). { intros t Pt. apply Rmin_left. rewrite <- rnd_BB at 1. apply (rnd_le 53 1024). lra. }
  assert (INF : forall y, nneg y -> dadd (S754_infinity false) y = S754_infinity false). { intros z Nz. destruct (nneg_cases z Nz) as [->|[O P]]; [reflexivity|]. destruct O as [V F]. destruct z as [s|s| |s m e]; try discriminate F; reflexivity. }
  assert (INF2 : forall y, nneg y -> dadd y (S754_infinity false) = S754_infinity false). { intros z Nz. destruct (nneg_cases z Nz) as [->|[O P]]; [reflexivity|]. destruct O as [V F]. destruct z as [s|s| |s m e]; try discriminate F; reflexivity. }
  assert (NI : nneg (S754_infinity false)) by (split; [split; [reflexivity|discriminate]|cbn [E]; lra]).
  destruct (nneg_cases x Nx) as [->|[Ox Px]]; [rewrite (INF y Ny); split; [exact NI|]; cbn [E]; symmetry; apply BIG; apply Ny|].
  destruct (nneg_cases y Ny) as [->|[Oy Py]]; [rewrite (INF2 x Nx); split; [exact NI|]; cbn [E]; rewrite Rplus_comm; symmetry; apply BIG; apply Nx|].
  destruct (add_fin x y Ox Oy Px Py) as [D H]. rewrite (E_fin x (proj2 Ox)), (E_fin y (proj2 Oy)). split; [|exact H]. split; [exact D|]. rewrite H. pose proof (rnd_pos (R x + R y) ltac:(lra)). apply Rmin_case; lra.
Qed.
Lemma E_rnd x : dbl x -> rnd64 (E x) = E x.
Proof.
  intros [V N]. destruct x as [s|s| |s m e]; cbn [E].
  - apply (rnd_R 53 1024). exact V.
  - destruct s; [rewrite rnd_opp|]; rewrite rnd_BB; reflexivity.
  - congruence.
  - apply (rnd_R 53 1024). exact V.
Qed.
Lemma E_le x : dbl x -> E x <= BB.
Proof. intros D. pose proof BB_pos. destruct (fin x) eqn:F; [pose proof (E_bound x (conj (proj1 D) F)); lra|]. destruct D as [V N]. destruct x as [|[]| |]; try discriminate F; try congruence; cbn [E]; lra. Qed.
Lemma add_ge x y : nneg x -> nneg y -> E x <= E (dadd x y).
Proof. intros Nx Ny. rewrite (proj2 (nneg_add x y Nx Ny)). apply Rmin_glb; [apply E_le; apply Nx|]. rewrite <- (E_rnd x) at 1 by apply Nx. apply (rnd_le 53 1024). destruct Ny. lra. Qed.
Lemma add_mono x y x' y' : nneg x -> nneg y -> nneg x' -> nneg y' -> E x <= E x' -> E y <= E y' -> E (dadd x y) <= E (dadd x' y').
Proof. intros Nx Ny Nx' Ny' L L'. rewrite (proj2 (nneg_add x y Nx Ny)), (proj2 (nneg_add x' y' Nx' Ny')). apply Rle_min_compat_l, (rnd_le 53 1024). lra. Qed.
Lemma mul_fin x y : okd x -> okd y -> 0 <= R x -> 0 <= R y -> dbl (dmul x y) /\ E (dmul x y) = Rmin BB (rnd64 (R x * R y)).
Proof.
  intros Ox Oy Px Py. destruct (mulE x y Ox Oy) as [D H]. split; [exact D|]. rewrite H. assert (P : 0 <= rnd64 (R x * R y)) by (apply rnd_pos; nra). unfold clampB. apply Rmax_right. pose proof BB_pos. apply Rmin_case; lra.
Qed.
Lemma mul_inf_l y a b : bnd a b y -> dmul (S754_infinity false) y = S754_infinity false /\ dmul y (S754_infinity false) = S754_infinity false.
Proof. intros B. destruct (bnd_shape _ _ _ B) as (m & e & ->). split; reflexivity. Qed.
Lemma NI : nneg (S754_infinity false). Proof. pose proof BB_pos. split; [split; [reflexivity|discriminate]|cbn [E]; lra]. Qed.
(** a positive number times one that is not negative *)
Lemma nneg_mul x y a b : bnd a b x -> nneg y -> nneg (dmul x y) /\ nneg (dmul y x).
Proof.
  intros B N. pose proof (bnd_pos _ _ _ B) as P. destruct (nneg_cases y N) as [->|[O Py]]; [destruct (mul_inf_l _ _ _ B) as [-> ->]; split; apply NI|].
  destruct (mul_fin x y (proj1 B) O ltac:(lra) Py) as [D H]. destruct (mul_fin y x O (proj1 B) Py ltac:(lra)) as [D' H']. pose proof BB_pos. pose proof (rnd_pos (R x * R y) ltac:(nra)). pose proof (rnd_pos (R y * R x) ltac:(nra)).
  split; (split; [assumption|]); [rewrite H|rewrite H']; apply Rmin_case; lra.
Qed.
Lemma nneg_mul_mono x x' y y' a b c d : bnd a b x -> bnd c d x' -> nneg y -> nneg y' -> R x <= R x' -> E y <= E y' -> E (dmul x y) <= E (dmul x' y').
Proof.
  intros B B' N N' L L'. destruct (nneg_cases y' N') as [->|[O' P']].
  - destruct (mul_inf_l _ _ _ B') as [_ ->]. apply E_le. apply (nneg_mul x y a b B N).
  - destruct (nneg_cases y N) as [->|[O P]]; [pose proof (E_bound y' O'); cbn [E] in L'; lra|]. pose proof (bnd_pos _ _ _ B). pose proof (bnd_pos _ _ _ B').
    destruct (mul_fin x y (proj1 B) O ltac:(lra) P) as [_ ->]. destruct (mul_fin x' y' (proj1 B') O' ltac:(lra) P') as [_ ->]. rewrite (E_fin _ (proj2 O)), (E_fin _ (proj2 O')) in L'. apply Rle_min_compat_l, (rnd_le 53 1024). apply Rmult_le_compat; lra.
Qed.
Lemma nneg_mul_mono_r x y y' a b : bnd a b x -> nneg y -> nneg y' -> E y <= E y' -> E (dmul y x) <= E (dmul y' x).
Proof.
  intros B N N' L'. pose proof (bnd_pos _ _ _ B). destruct (nneg_cases y' N') as [->|[O' P']].
  - destruct (mul_inf_l _ _ _ B) as [-> _]. apply E_le. apply (nneg_mul x y a b B N).
  - destruct (nneg_cases y N) as [->|[O P]]; [pose proof (E_bound y' O'); cbn [E] in L'; lra|].
    destruct (mul_fin y x O (proj1 B) P ltac:(lra)) as [_ ->]. destruct (mul_fin y' x O' (proj1 B) P' ltac:(lra)) as [_ ->]. rewrite (E_fin _ (proj2 O)), (E_fin _ (proj2 O')) in L'. apply Rle_min_compat_l, (rnd_le 53 1024). apply Rmult_le_compat; lra.
Qed.
Lemma mul_ge1 x y a b : bnd a b x -> nneg y -> 1 <= E y -> E x <= E (dmul x y).
Proof.
  intros B N L. pose proof (bnd_pos _ _ _ B). destruct (nneg_cases y N) as [->|[O P]]; [destruct (mul_inf_l _ _ _ B) as [_ ->]; apply E_le, okd_dbl, B|].
  destruct (mul_fin x y (proj1 B) O ltac:(lra) P) as [_ ->]. rewrite (E_fin _ (proj2 O)) in L. apply Rmin_glb; [apply E_le, okd_dbl, B|]. rewrite (E_fin _ (proj2 (proj1 B))). rewrite <- (rnd_R 53 1024 x) at 1 by apply B. apply (rnd_le 53 1024). nra.
Qed.
(** ** sums *)
Definition counts (l : list sf) : Prop := Forall nneg l.
Lemma N0 : nneg d0. Proof. split; [apply okd_dbl, z_ok|rewrite E0; lra]. Qed.
Lemma sum_from l : forall acc, nneg acc -> counts l -> nneg (fold_left dadd l acc).
Proof. induction l as [|x l IH]; intros acc N F; [exact N|]. inversion F; subst. cbn [fold_left]. apply IH; [apply nneg_add; assumption|assumption]. Qed.
Lemma sum_mono l l' : Forall2 (fun x y => E x <= E y) l l' -> forall a a', nneg a -> nneg a' -> counts l -> counts l' -> E a <= E a' -> E (fold_left dadd l a) <= E (fold_left dadd l' a').
Proof.
  induction 1 as [|x y l l' L _ IH]; intros a a' Na Na' C C' La; [exact La|]. inversion C; inversion C'; subst. cbn [fold_left]. apply IH; try assumption; try (apply nneg_add; assumption). apply add_mono; assumption.
Qed.
Definition all_counts (m : pmap (list sf)) : Prop := forall t l, m t = Some l -> counts l.
Lemma entry_nneg m t acc : all_counts m -> nneg acc -> nneg (add_entry acc m t).
Proof. intros A N. unfold add_entry. destruct (m t) as [l|] eqn:M; [|exact N]. apply nneg_add; [exact N|]. apply sum_from; [apply N0|exact (A t l M)]. Qed.
Record counted (d : defects) : Prop := { ct_i : all_counts (interst d); ct_v : all_counts (vacs d); ct_c : all_counts (clus d) }.
Lemma total_nneg d t : counted d -> nneg (total_defects d t).
Proof. intros [I V C]. unfold total_defects. repeat apply entry_nneg; try assumption. apply N0. Qed.
Definition entry_le (o o' : option (list sf)) : Prop := match o, o' with Some l, Some l' => Forall2 (fun x y => E x <= E y) l l' | None, _ => True | _, _ => False end.
Lemma entry_mono m m' t a a' : all_counts m -> all_counts m' -> entry_le (m t) (m' t) -> nneg a -> nneg a' -> E a <= E a' -> E (add_entry a m t) <= E (add_entry a' m' t).
Proof.
  intros A A' L N N' La. unfold add_entry, entry_le in *. destruct (m t) as [l|] eqn:M, (m' t) as [l'|] eqn:M'; try contradiction; try assumption.
  - apply add_mono; try assumption; try (apply sum_from; [apply N0|eauto]). apply sum_mono; eauto using N0. lra.
  - apply Rle_trans with (1 := La). apply add_ge; [assumption|]. apply sum_from; [apply N0|eauto].
Qed.
Lemma total_mono d d' t : counted d -> counted d' -> entry_le (interst d t) (interst d' t) -> entry_le (vacs d t) (vacs d' t) -> entry_le (clus d t) (clus d' t) -> E (total_defects d t) <= E (total_defects d' t).
Proof.
  intros [I V C] [I' V' C'] L1 L2 L3. unfold total_defects. apply entry_mono; try assumption; [repeat apply entry_nneg; try assumption; apply N0|repeat apply entry_nneg; try assumption; apply N0|].
  apply entry_mono; try assumption; [repeat apply entry_nneg; try assumption; apply N0|repeat apply entry_nneg; try assumption; apply N0|]. apply entry_mono; try assumption; try apply N0; try lra.
Qed.
(** ** decoherence *)
Lemma heat_bnd t : warm t -> bnd 0 13 (dadd d1 (ddiv t (dofZ 300))) /\ 1 <= R (dadd d1 (ddiv t (dofZ 300))).
Proof.
  intros W. assert (B3 : bnd 8 9 (dofZ 300)) by (apply lit_bnd; vm_compute; reflexivity). assert (Z : zbnd (-29) 12 (ddiv t (dofZ 300))) by (apply (zbnd_div (-20) 20 8 9); [exact W|exact B3|lia|lia]).
  destruct (zbnd_R _ _ _ Z) as [O B]. destruct (one_plus 12 _ O B) as (B1 & _ & G); [lia|]. split; assumption.
Qed.
Lemma heat_mono t t' : warm t -> warm t' -> R t <= R t' -> R (dadd d1 (ddiv t (dofZ 300))) <= R (dadd d1 (ddiv t' (dofZ 300))).
Proof.
  intros W W' L. assert (B3 : bnd 8 9 (dofZ 300)) by (apply lit_bnd; vm_compute; reflexivity). assert (N : forall s, warm s -> nneg s) by (intros s Ws; destruct (warm_R s Ws) as [O B]; apply nneg_okd; [exact O|lra]).
  assert (LE : E (dadd d1 (ddiv t (dofZ 300))) <= E (dadd d1 (ddiv t' (dofZ 300)))).
  { apply add_mono; try (apply nneg_okd; [apply o_ok|rewrite (proj2 o_ok); lra]); try (apply (nneg_div _ _ 8 9); [apply N; assumption|exact B3]); [lra|]. apply (nneg_div_mono _ _ _ 8 9); try (apply N; assumption); try exact B3. destruct (warm_R _ W) as [O _]. destruct (warm_R _ W') as [O' _]. rewrite (E_fin _ (proj2 O)), (E_fin _ (proj2 O')). exact L. }
  destruct (heat_bnd t W) as [[O _] _]. destruct (heat_bnd t' W') as [[O' _] _]. rewrite (E_fin _ (proj2 O)), (E_fin _ (proj2 O')) in LE. exact LE.
Qed.
Definition crowd (d : defects) (x : xparams) (t : ptype) : sf := dadd d1 (dmul (total_defects d t) (getDiss x t)).
Lemma crowd_ok d x t : counted d -> bnd (-100) 100 (getDiss x t) -> nneg (crowd d x t) /\ 1 <= E (crowd d x t).
Proof.
  intros C B. unfold crowd. assert (N : nneg (dmul (total_defects d t) (getDiss x t))) by (apply (nneg_mul _ _ _ _ B), total_nneg; exact C). assert (N1 : nneg d1) by (apply nneg_okd; [apply o_ok|rewrite (proj2 o_ok); lra]).
  split; [apply nneg_add; assumption|]. rewrite <- E1. apply add_ge; assumption.
Qed.
Lemma rate_bnd (d : defects) temp x t : warm temp -> bnd (-100) 100 (getDeco x t) -> bnd (-100) 113 (dmul (getDeco x t) (dadd d1 (ddiv temp (dofZ 300)))) /\ R (getDeco x t) <= R (dmul (getDeco x t) (dadd d1 (ddiv temp (dofZ 300)))).
Proof.
  intros W B. destruct (heat_bnd temp W) as [HB G]. destruct (bnd_mul _ _ _ _ _ _ B HB) as [BM EM]; try lia. split; [exact BM|]. rewrite EM. rewrite <- (rnd_R 53 1024 (getDeco x t)) at 1 by apply B. apply (rnd_le 53 1024). pose proof (bnd_pos _ _ _ B). nra.
Qed.
Lemma deco_ok d temp x t : warm temp -> counted d -> bnd (-100) 100 (getDeco x t) -> bnd (-100) 100 (getDiss x t) -> nneg (decoherence d temp x t) /\ E (getDeco x t) <= E (decoherence d temp x t).
Proof.
  intros W C B1 B2. destruct (rate_bnd d temp x t W B1) as [RB RL]. destruct (crowd_ok d x t C B2) as [CN CL]. unfold decoherence. fold (crowd d x t). split; [apply (nneg_mul _ _ _ _ RB CN)|].
  pose proof (mul_ge1 _ _ _ _ RB CN CL) as H. rewrite (E_fin _ (proj2 (proj1 RB))) in H. rewrite (E_fin _ (proj2 (proj1 B1))). lra.
Qed.
Lemma deco_mono d d' temp temp' x t : warm temp -> warm temp' -> R temp <= R temp' -> counted d -> counted d' -> bnd (-100) 100 (getDeco x t) -> bnd (-100) 100 (getDiss x t) ->
  entry_le (interst d t) (interst d' t) -> entry_le (vacs d t) (vacs d' t) -> entry_le (clus d t) (clus d' t) -> E (decoherence d temp x t) <= E (decoherence d' temp' x t).
Proof.
  intros W W' L C C' B1 B2 L1 L2 L3. destruct (rate_bnd d temp x t W B1) as [RB _]. destruct (rate_bnd d temp' x t W' B1) as [RB' _]. destruct (crowd_ok d x t C B2) as [CN _]. destruct (crowd_ok d' x t C' B2) as [CN' _].
  unfold decoherence. fold (crowd d x t) (crowd d' x t). apply (nneg_mul_mono _ _ _ _ _ _ _ _ RB RB' CN CN').
  - destruct (heat_bnd temp W) as [HB _]. destruct (heat_bnd temp' W') as [HB' _]. destruct (bnd_mul _ _ _ _ _ _ B1 HB) as [_ ->]; try lia. destruct (bnd_mul _ _ _ _ _ _ B1 HB') as [_ ->]; try lia. apply (rnd_le 53 1024). pose proof (bnd_pos _ _ _ B1). pose proof (heat_mono temp temp' W W' L). nra.
  - unfold crowd. assert (N1 : nneg d1) by (apply nneg_okd; [apply o_ok|rewrite (proj2 o_ok); lra]). apply add_mono; try exact N1; try (apply (nneg_mul _ _ _ _ B2), total_nneg; assumption); [lra|]. apply (nneg_mul_mono_r _ _ _ _ _ B2); try (apply total_nneg; assumption). apply total_mono; assumption.
Qed.
