(** Cosmic rays and the South Atlantic Anomaly; the flux of each mission. *)
From Coq Require Import List NArith ZArith Bool Arith Lia Reals Lra SpecFloat.
Import ListNotations.
From Flocq Require Import Core BinarySingleNaN.
From Verif Require Import Outcome Words Floats FloatsR HealthFloat RMA3_Proofs Hw_Proofs Qft_Model Qft_Spec Qft2_Proofs Qft4_Proofs Qft5_Proofs Qft6_Proofs Qer3_Proofs Env_Model EnvB_Spec Env3_Proofs Env4_Proofs.
Local Open Scope R_scope.

Ltac lnb k := (apply (lit_nb k); vm_compute; reflexivity).
Ltac lbd := (apply lit_bnd; vm_compute; reflexivity).
Lemma div_mono_nb j a b x x' y : nb j x -> nb j x' -> bnd a b y -> (-1074 <= j - a <= 1000)%Z -> R x <= R x' -> R (ddiv x y) <= R (ddiv x' y).
Proof.
  intros A A' B L P. rewrite (proj2 (nb_div j a b x y A B L)), (proj2 (nb_div j a b x' y A' B L)). apply (rnd_le 53 1024). apply Rmult_le_compat_r; [|exact P]. apply Rlt_le, Rinv_0_lt_compat. exact (bnd_pos _ _ _ B).
Qed.
Lemma le_lit x y : okd x -> okd y -> fle x y = true -> R x <= R y. Proof. intros A B H. apply (fle_d x y A B). exact H. Qed.

(** ** magnetic factor *)
Definition mag (x : sf) : sf := dadd d1 (ddiv (dmul (dq 5 10) (dabs x)) (dofZ 90)).
Lemma abs_R x : R (dabs x) = Rabs (R x).
Proof.
  destruct x as [s|s| |s m e]; try (unfold R; cbn; rewrite Rabs_R0; reflexivity). cbn [dabs SFabs]. rewrite !fin_R. rewrite Rabs_mult, (Rabs_pos_eq (b2 e)) by apply bpow_ge_0. f_equal. cbn [cond_Zopp].
  destruct s; cbn [cond_Zopp]; [rewrite opp_IZR, Rabs_Ropp|]; rewrite Rabs_pos_eq; try reflexivity; apply IZR_le; lia.
Qed.
Lemma abs_ok x : okd x -> okd (dabs x).
Proof. intros (V & F). destruct x as [s|s| |s m e]; try discriminate F; (split; [|reflexivity]); [reflexivity|exact V]. Qed.
Lemma abs_nb x : between (-90) 90 x -> nb 7 (dabs x).
Proof. intros (O & B). split; [apply abs_ok; exact O|]. rewrite abs_R. split; [apply Rabs_pos|]. change (b2 7) with 128. apply Rabs_le. lra. Qed.
Lemma mag_step x : between (-90) 90 x -> nb 0 (ddiv (dmul (dq 5 10) (dabs x)) (dofZ 90)).
Proof.
  intros B. pose proof (abs_nb x B) as A. assert (h : nb 0 (dq 5 10)) by lnb 0%Z. destruct (nb_mul 0 7 _ _ h A ltac:(lia)) as (M & RM).
  assert (T : bnd 6 7 (dofZ 90)) by lbd. destruct (nb_div 7 6 7 _ _ M T ltac:(lia)) as (D & RD). split; [apply D|]. split; [apply D|]. rewrite RD. change (b2 0) with 1. apply (rnd_int 0 1 _); [lia|lia|].
  assert (HR : R (dq 5 10) = / 2) by (vm_compute; lra). destruct (ofZ_ex 90 ltac:(lia)) as (O9 & R9). rewrite R9. assert (U : R (dmul (dq 5 10) (dabs x)) <= 90).
  { rewrite RM. apply (rnd_int 0 90 _); [lia|lia|]. rewrite HR, abs_R. destruct B as (_ & B). pose proof (Rabs_pos (R x)). assert (Rabs (R x) <= 90) by (apply Rabs_le; lra). lra. }
  assert (0 <= R (dmul (dq 5 10) (dabs x))) by apply M. lra.
Qed.
Lemma one_nb : nb 0 d1. Proof. exact (bnd_nb _ _ _ one_bnd). Qed.
Lemma mag_ok x : between (-90) 90 x -> nb 1 (mag x) /\ 1 <= R (mag x).
Proof. intros B. pose proof (mag_step x B) as S. split; [apply (nb_add 0); [exact one_nb|exact S|lia]|]. rewrite <- (proj2 o_ok). apply (add_ge_l 0); [exact one_nb|exact S|lia]. Qed.
Lemma mag_mono x y : between (-90) 90 x -> between (-90) 90 y -> Rabs (R x) <= Rabs (R y) -> R (mag x) <= R (mag y).
Proof.
  intros A B L. apply (add_mono_nb 0); try exact one_nb; try (apply mag_step; assumption); try lia; [lra|]. assert (h : nb 0 (dq 5 10)) by lnb 0%Z.
  apply (div_mono_nb 7 6 7); [apply (nb_mul 0 7); [exact h|apply abs_nb; exact A|lia]|apply (nb_mul 0 7); [exact h|apply abs_nb; exact B|lia]|lbd|lia|].
  apply (mul_mono 0 7); try exact h; try (apply abs_nb; assumption); try lia; [lra|]. rewrite !abs_R. exact L.
Qed.

(** ** altitude factor *)
Definition afA (x : sf) : sf := dadd (dq 7 10) (ddiv (dmul (dq 3 10) x) (dofZ 1000)).
Definition afB (x : sf) : sf := dadd d1 (ddiv (dmul (dq 5 10) (dsub x (dofZ 1000))) (dofZ 19000)).
Definition af (x : sf) : sf := if flt x (dofZ 1000) then afA x else if flt x (dofZ 20000) then afB x else dq 15 10.
Lemma d7 : nb 0 (dq 7 10). Proof. lnb 0%Z. Qed.
Lemma d3 : nb 0 (dq 3 10). Proof. lnb 0%Z. Qed.
Lemma d5 : nb 0 (dq 5 10). Proof. lnb 0%Z. Qed.
Lemma d15 : nb 1 (dq 15 10). Proof. lnb 1%Z. Qed.
Lemma nbX n k x : okd x -> 0 <= R x <= IZR n -> IZR n <= b2 k -> nb k x. Proof. intros O B L. split; [exact O|lra]. Qed.
Lemma zmono x y : okd x -> okd y -> 0 <= R x -> R x <= R y -> R y <= 1000 -> R (afA x) <= R (afA y) /\ nb 2 (afA x).
Proof.
  intros Ox Oy P L U. assert (X : nb 10 x) by (split; [exact Ox|change (b2 10) with 1024; lra]). assert (Y : nb 10 y) by (split; [exact Oy|change (b2 10) with 1024; lra]).
  assert (T : bnd 9 10 (dofZ 1000)) by lbd. destruct (nb_mul 0 10 _ _ d3 X ltac:(lia)) as (MX & _). destruct (nb_mul 0 10 _ _ d3 Y ltac:(lia)) as (MY & _).
  pose proof (proj1 (nb_div 10 9 10 _ _ MX T ltac:(lia))) as DX. pose proof (proj1 (nb_div 10 9 10 _ _ MY T ltac:(lia))) as DY. assert (S : nb 1 (dq 7 10)) by (apply (nb_weak 0); [exact d7|lia]).
  split; [|apply (nb_add 1); [exact S|exact DX|lia]]. apply (add_mono_nb 1); try assumption; try lia; [lra|]. apply (div_mono_nb 10 9 10); try assumption; try lia. apply (mul_mono 0 10); try assumption; try exact d3; try lia. lra.
Qed.
Lemma sub_step x : okd x -> 1000 <= R x <= 20000 -> nb 15 (dsub x (dofZ 1000)) /\ R (dsub x (dofZ 1000)) = rnd64 (R x - 1000).
Proof.
  intros O B. destruct z1000 as (Oz & Rz). destruct (sub_d x (dofZ 1000) O Oz) as (Os & Rs); [rewrite Rz; unfold mid; lra|]. rewrite Rz in Rs. split; [|exact Rs]. split; [exact Os|]. rewrite Rs.
  change (b2 15) with 32768. assert (0 <= rnd64 (R x - 1000) <= 20000) by (apply (rnd_int 0 20000); [lia|lia|lra]). lra.
Qed.
Lemma bmono x y : okd x -> okd y -> 1000 <= R x -> R x <= R y -> R y <= 20000 -> R (afB x) <= R (afB y) /\ nb 2 (afB x) /\ 1 <= R (afB x).
Proof.
  intros Ox Oy P L U. destruct (sub_step x Ox ltac:(lra)) as (X & RX). destruct (sub_step y Oy ltac:(lra)) as (Y & RY). assert (LE : R (dsub x (dofZ 1000)) <= R (dsub y (dofZ 1000))) by (rewrite RX, RY; apply (rnd_le 53 1024); lra).
  assert (T : bnd 14 15 (dofZ 19000)) by lbd. destruct (nb_mul 0 15 _ _ d5 X ltac:(lia)) as (MX & _). destruct (nb_mul 0 15 _ _ d5 Y ltac:(lia)) as (MY & _).
  pose proof (proj1 (nb_div 15 14 15 _ _ MX T ltac:(lia))) as DX. pose proof (proj1 (nb_div 15 14 15 _ _ MY T ltac:(lia))) as DY. assert (S : nb 1 d1) by (apply (nb_weak 0); [exact one_nb|lia]).
  split; [|split; [apply (nb_add 1); [exact S|exact DX|lia]|rewrite <- (proj2 o_ok); apply (add_ge_l 1); [exact S|exact DX|lia]]].
  apply (add_mono_nb 1); try assumption; try lia; [lra|]. apply (div_mono_nb 15 14 15); try assumption; try lia. apply (mul_mono 0 15); try assumption; try exact d5; try lia. lra.
Qed.
Lemma z20000 : okd (dofZ 20000) /\ R (dofZ 20000) = 20000. Proof. apply (ofZ_ex 20000). lia. Qed.
Lemma afA_top x : okd x -> 0 <= R x <= 1000 -> R (afA x) <= 1.
Proof.
  intros O B. destruct z1000 as (Oz & Rz). destruct (zmono x (dofZ 1000) O Oz) as (L & _); try lra. destruct (zmono (dofZ 1000) (dofZ 1000) Oz Oz) as (_ & N); try lra. eapply Rle_trans; [exact L|]. rewrite <- (proj2 o_ok).
  apply le_lit; [apply N|apply o_ok|vm_compute; reflexivity].
Qed.
Lemma afB_top x : okd x -> 1000 <= R x <= 20000 -> R (afB x) <= R (dq 15 10).
Proof.
  intros O B. destruct z20000 as (Oz & Rz). destruct (bmono x (dofZ 20000) O Oz) as (L & _); try lra. destruct (bmono (dofZ 20000) (dofZ 20000) Oz Oz) as (_ & N & _); try lra. eapply Rle_trans; [exact L|].
  apply le_lit; [apply N|apply d15|vm_compute; reflexivity].
Qed.
Lemma big_alt x n : nneg x -> (0 < n < 1000000)%Z -> flt x (dofZ n) = false -> x = S754_infinity false \/ (okd x /\ IZR n <= R x).
Proof. intros N Hn L. destruct (ofZ_ex n ltac:(lia)) as (On & Rn). destruct (nneg_cases x N) as [->|(O & P)]; [left; reflexivity|right]. apply (flt_dF x (dofZ n) O On) in L. rewrite Rn in L. split; assumption. Qed.
Inductive band (x : sf) : Prop :=
  | BA : okd x -> 0 <= R x < 1000 -> af x = afA x -> band x
  | BBm : okd x -> 1000 <= R x < 20000 -> af x = afB x -> band x
  | BC : (20000 <= E x) -> af x = dq 15 10 -> band x.
Lemma af_band x : nneg x -> band x.
Proof.
  intros N. destruct (flt x (dofZ 1000)) eqn:L1.
  - destruct (alt_small x 1000 N ltac:(lia) L1) as (O & B). apply BA; [exact O|exact B|]. unfold af. rewrite L1. reflexivity.
  - destruct (flt x (dofZ 20000)) eqn:L2.
    + destruct (alt_small x 20000 N ltac:(lia) L2) as (O & B). destruct (big_alt x 1000 N ltac:(lia) L1) as [->|(_ & B1)]; [destruct O; discriminate|]. apply BBm; [exact O|lra|]. unfold af. rewrite L1, L2. reflexivity.
    + apply BC; [|unfold af; rewrite L1, L2; reflexivity]. destruct (big_alt x 20000 N ltac:(lia) L2) as [->|(O & B1)]; [cbn [E]; pose proof BB_pos; lra|]. rewrite E_fin by apply O. exact B1.
Qed.
Lemma d15_1 : 1 <= R (dq 15 10). Proof. rewrite <- (proj2 o_ok). apply le_lit; [apply o_ok|apply d15|vm_compute; reflexivity]. Qed.
Lemma af_mono x y : nneg x -> nneg y -> E x <= E y -> R (af x) <= R (af y) /\ nb 1 (af x).
Proof.
  intros NX NY L. pose proof d15_1 as D. destruct (af_band x NX) as [O B Q|O B Q|B Q].
  - rewrite E_fin in L by apply O. destruct (zmono x x O O) as (_ & NA); try lra. pose proof (afA_top x O ltac:(lra)) as T. split; [|rewrite Q; split; [apply NA|]; change (b2 1) with 2; assert (0 <= R (afA x)) by apply NA; lra].
    destruct (af_band y NY) as [O' B' Q'|O' B' Q'|B' Q']; rewrite Q, Q'.
    + rewrite E_fin in L by apply O'. apply zmono; try assumption; lra.
    + destruct (bmono y y O' O') as (_ & _ & G); try lra.
    + lra.
  - rewrite E_fin in L by apply O. destruct (bmono x x O O) as (_ & NA & G); try lra. pose proof (afB_top x O ltac:(lra)) as T. assert (T2 : R (dq 15 10) <= 2) by (destruct d15 as (_ & Z); change (b2 1) with 2 in Z; lra).
    split; [|rewrite Q; split; [apply NA|]; change (b2 1) with 2; lra]. destruct (af_band y NY) as [O' B' Q'|O' B' Q'|B' Q']; rewrite Q, Q'.
    + rewrite E_fin in L by apply O'. lra.
    + rewrite E_fin in L by apply O'. apply bmono; try assumption; lra.
    + exact T.
  - split; [|rewrite Q; exact d15]. destruct (af_band y NY) as [O' B' Q'|O' B' Q'|B' Q']; rewrite Q, Q'; try lra; rewrite (E_fin y) in L by apply O'; lra.
Qed.

(** ** cosmic rays *)
Lemma factor_eq p : gcr_factor p = dmul (mag (lat p)) (af (alt p)). Proof. reflexivity. Qed.
Lemma factor_nb p : on_earth p -> nb 2 (gcr_factor p).
Proof. intros [A _ N]. apply nneg_not in N. rewrite factor_eq. apply (nb_mul 1 1); [apply mag_ok; exact A|apply (af_mono _ _ N N); lra|lia]. Qed.
Lemma factor_mono p q : on_earth p -> on_earth q -> Rabs (R (lat p)) <= Rabs (R (lat q)) -> E (alt p) <= E (alt q) -> R (gcr_factor p) <= R (gcr_factor q).
Proof.
  intros [A _ N] [A' _ N'] L L'. apply nneg_not in N. apply nneg_not in N'. rewrite !factor_eq. apply (mul_mono 1 1); try (apply mag_ok; assumption); try lia;
  [apply (af_mono _ _ N N); lra|apply (af_mono _ _ N' N'); lra|apply mag_mono; assumption|apply af_mono; assumption].
Qed.
Lemma gcr_ok p : on_earth p -> fnb 12 9 6 (-7) (gcr_model p).
Proof.
  intros H. pose proof (factor_nb p H) as K. assert (a : nb 10 (dofZ 1000)) by lnb 10%Z. assert (b : nb 7 (dofZ 100)) by lnb 7%Z. assert (c : nb 4 (dofZ 10)) by lnb 4%Z. assert (d : nb (-9) (dq 1 1000)) by lnb (-9)%Z.
  unfold gcr_model, fnb. cbn [electron proton ion dose]. repeat split; try apply (nb_mul 10 2 _ _ a K ltac:(lia)); try apply (nb_mul 7 2 _ _ b K ltac:(lia)); try apply (nb_mul 4 2 _ _ c K ltac:(lia)); apply (nb_mul (-9) 2 _ _ d K ltac:(lia)).
Qed.
Definition fR (f g : flux) : Prop := R (electron f) <= R (electron g) /\ R (proton f) <= R (proton g) /\ R (ion f) <= R (ion g) /\ R (dose f) <= R (dose g).
Lemma gcr_mono p q : on_earth p -> on_earth q -> R (gcr_factor p) <= R (gcr_factor q) -> fR (gcr_model p) (gcr_model q).
Proof.
  intros H H' L. pose proof (factor_nb p H) as K. pose proof (factor_nb q H') as K'. assert (a : nb 10 (dofZ 1000)) by lnb 10%Z. assert (b : nb 7 (dofZ 100)) by lnb 7%Z. assert (c : nb 4 (dofZ 10)) by lnb 4%Z. assert (d : nb (-9) (dq 1 1000)) by lnb (-9)%Z.
  unfold gcr_model, fR. cbn [electron proton ion dose]. split; [apply (mul_mono 10 2)|split; [apply (mul_mono 7 2)|split; [apply (mul_mono 4 2)|apply (mul_mono (-9) 2)]]]; try assumption; try lia; lra.
Qed.
