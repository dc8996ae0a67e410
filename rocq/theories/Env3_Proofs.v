(** Interval lemmas for fluxes; activity and shielding histories. *)
From Coq Require Import List NArith ZArith Bool Arith Lia Reals Lra SpecFloat.
Import ListNotations.
From Flocq Require Import Core BinarySingleNaN.
From Verif Require Import Outcome Words Floats FloatsR HealthFloat Hw_Proofs Qft_Model Qft_Spec Qft2_Proofs Qft4_Proofs Qft5_Proofs Qer3_Proofs Env_Model EnvB_Spec.
Local Open Scope R_scope.

Definition nb (k : Z) (x : sf) : Prop := okd x /\ 0 <= R x <= b2 k.
Lemma nb_weak j k x : nb j x -> (j <= k)%Z -> nb k x.
Proof. intros (O & B) L. split; [exact O|]. pose proof (bpow_le radix2 j k L). lra. Qed.
Lemma nb_nneg k x : nb k x -> nneg x.
Proof. intros (O & B). split; [apply okd_dbl; exact O|]. rewrite E_fin by apply O. lra. Qed.
Lemma bnd_nb a b x : bnd a b x -> nb b x.
Proof. intros (O & B). split; [exact O|]. pose proof (bpow_ge_0 radix2 a). lra. Qed.
Lemma rnd_ovf2 k t : (k <= 1000)%Z -> (-1074 <= k)%Z -> 0 <= t <= b2 k -> 0 <= rnd64 t <= b2 k /\ Rabs (rnd64 t) < b2 1024.
Proof.
  intros L K [B0 B1]. assert (A : 0 <= rnd64 t <= b2 k). { split; [apply rnd_pos; exact B0|]. rewrite <- (rnd_bpow k) by lia. apply (rnd_le 53 1024). exact B1. }
  split; [exact A|]. rewrite Rabs_pos_eq by apply A. apply (Rle_lt_trans _ (b2 k)); [apply A|]. apply bpow_lt. lia.
Qed.
Lemma nb_mul j k x y : nb j x -> nb k y -> (-1074 <= j + k <= 1000)%Z -> nb (j + k) (dmul x y) /\ R (dmul x y) = rnd64 (R x * R y).
Proof.
  intros [[Vx Fx] Bx] [[Vy Fy] By] L. assert (B : 0 <= R x * R y <= b2 (j + k)). { rewrite bpow_plus. split; [apply Rmult_le_pos; lra|]. apply Rmult_le_compat; lra. }
  destruct (rnd_ovf2 (j + k) (R x * R y) ltac:(lia) ltac:(lia) B) as (A & O). destruct (mul_R 53 1024 x y Vx Vy Fx Fy O) as (Q & F & V). fold (dmul x y) in *.
  split; [|exact Q]. split; [split; assumption|]. rewrite Q. exact A.
Qed.
Lemma nb_add k x y : nb k x -> nb k y -> (-1074 <= k < 1000)%Z -> nb (k + 1) (dadd x y) /\ R (dadd x y) = rnd64 (R x + R y).
Proof.
  intros [[Vx Fx] Bx] [[Vy Fy] By] L. assert (B : 0 <= R x + R y <= b2 (k + 1)). { rewrite bpow_plus. change (b2 1) with 2. lra. }
  destruct (rnd_ovf2 (k + 1) (R x + R y) ltac:(lia) ltac:(lia) B) as (A & O). destruct (add_R 53 1024 x y Vx Vy Fx Fy O) as (Q & F & V). fold (dadd x y) in *.
  split; [|exact Q]. split; [split; assumption|]. rewrite Q. exact A.
Qed.
Lemma nb_div j a b x y : nb j x -> bnd a b y -> (-1074 <= j - a <= 1000)%Z -> nb (j - a) (ddiv x y) /\ R (ddiv x y) = rnd64 (R x / R y).
Proof.
  intros [[Vx Fx] Bx] By L. pose proof (bnd_pos _ _ _ By) as P. destruct By as [[Vy Fy] By].
  assert (B : 0 <= R x / R y <= b2 (j - a)). { unfold Zminus, Rdiv. rewrite bpow_plus, bpow_opp. assert (0 < / R y) by (apply Rinv_0_lt_compat; lra). pose proof (bpow_gt_0 radix2 a).
    split; [apply Rmult_le_pos; lra|]. apply Rmult_le_compat; try lra. apply Rinv_le; lra. }
  destruct (rnd_ovf2 (j - a) (R x / R y) ltac:(lia) ltac:(lia) B) as (A & O). destruct (div_R 53 1024 x y Vx Vy Fx ltac:(lra) O) as (Q & F & V). fold (ddiv x y) in *.
  split; [|exact Q]. split; [split; assumption|]. rewrite Q. exact A.
Qed.
Lemma mul_mono j k x x' y y' : nb j x -> nb j x' -> nb k y -> nb k y' -> (-1074 <= j + k <= 1000)%Z -> R x <= R x' -> R y <= R y' -> R (dmul x y) <= R (dmul x' y').
Proof. intros A A' B B' L P Q. rewrite (proj2 (nb_mul j k x y A B L)), (proj2 (nb_mul j k x' y' A' B' L)). apply (rnd_le 53 1024). destruct A, A', B, B'. apply Rmult_le_compat; lra. Qed.
Lemma add_mono_nb k x x' y y' : nb k x -> nb k x' -> nb k y -> nb k y' -> (-1074 <= k < 1000)%Z -> R x <= R x' -> R y <= R y' -> R (dadd x y) <= R (dadd x' y').
Proof. intros A A' B B' L P Q. rewrite (proj2 (nb_add k x y A B L)), (proj2 (nb_add k x' y' A' B' L)). apply (rnd_le 53 1024). lra. Qed.
Lemma rnd_id x : okd x -> rnd64 (R x) = R x.
Proof. intros O. apply (rnd_R 53 1024). apply O. Qed.
Lemma add_ge_l k x y : nb k x -> nb k y -> (-1074 <= k < 1000)%Z -> R x <= R (dadd x y).
Proof. intros A B L. rewrite (proj2 (nb_add k x y A B L)). rewrite <- (rnd_id x (proj1 A)) at 1. apply (rnd_le 53 1024). destruct B. lra. Qed.
Lemma mul_ge_l j k x y : nb j x -> nb k y -> (-1074 <= j + k <= 1000)%Z -> 1 <= R y -> R x <= R (dmul x y).
Proof. intros A B L H. rewrite (proj2 (nb_mul j k x y A B L)). rewrite <- (rnd_id x (proj1 A)) at 1. apply (rnd_le 53 1024). destruct A. nra. Qed.
Lemma lit_nb k x : litb (-1000) k x = true -> nb k x.
Proof. intros H. exact (bnd_nb _ _ _ (lit_bnd _ _ _ H)). Qed.
Lemma inr_nb lo hi k x : inr lo hi x -> 0 <= lo -> hi <= b2 k -> nb k x.
Proof. intros (O & B) L U. split; [exact O|lra]. Qed.
Lemma nneg_not x : not_negative x <-> nneg x.
Proof.
  unfold not_negative, nneg. split.
  - intros (D & L). assert (dbl x). { split; [exact D|]. intros ->. discriminate. } split; [assumption|]. apply (leE d0 x (okd_dbl _ (proj1 z_ok)) H) in L. rewrite E0 in L. exact L.
  - intros (D & L). split; [apply D|]. apply (leE d0 x (okd_dbl _ (proj1 z_ok)) D). rewrite E0. exact L.
Qed.

(** ** activity *)
Definition act_ok (r : renv) : Prop := inr 0 1 (r_solar r).
Definition part_ok (x : sf) : Prop := inr 0 1 x.
Definition env_ok (r : renv) : Prop := act_ok r /\ part_ok (r_e r) /\ part_ok (r_p r) /\ part_ok (r_h r).
Lemma half_nb : nb 0 (dq 5 10) /\ bnd (-2) 0 (dq 5 10).
Proof. split; [apply lit_nb; vm_compute; reflexivity|apply lit_bnd; vm_compute; reflexivity]. Qed.
Lemma flare_act a i : inr 0 1 a -> nneg i -> inr 0 1 (fmin d1 (dadd a (dmul i (dq 5 10)))) /\ R a <= R (fmin d1 (dadd a (dmul i (dq 5 10)))) /\
  R (fmin d1 (dadd a (dmul i (dq 5 10)))) = Rmin 1 (E (dadd a (dmul i (dq 5 10)))).
Proof.
  intros A I. assert (NA : nneg a) by (apply (nb_nneg 0); apply (inr_nb 0 1 0 a A); [lra|change (b2 0) with 1; lra]).
  destruct (nneg_mul (dq 5 10) i (-2) 0 (proj2 half_nb) I) as (_ & NI2). pose proof (add_ge a _ NA NI2) as G. destruct (nneg_add a _ NA NI2) as ((D & L) & _).
  destruct (fminE d1 _ (okd_dbl _ (proj1 o_ok)) D) as (DM & M). rewrite E1 in M. rewrite (E_fin a) in G by apply A.
  set (z := fmin d1 (dadd a (dmul i (dq 5 10)))) in *. assert (B : 0 <= E z <= 1). { rewrite M. split; [apply Rmin_glb; lra|apply Rmin_l]. }
  assert (F : fin z = true). { pose proof BB_pos. destruct DM as (V & N). clearbody z. destruct z as [|[]| |]; try reflexivity; cbn [E] in B; try lra. congruence. }
  rewrite (E_fin z F) in B, M. split; [split; [split; [apply DM|exact F]|exact B]|]. split; [|exact M]. rewrite M. apply Rmin_glb; [apply A|exact G].
Qed.
Lemma step_act fexp r c : act_ok r -> legal c -> act_ok (rstep fexp r c) /\ (is_solar c = false -> R (r_solar r) <= R (r_solar (rstep fexp r c))).
Proof.
  intros A L. destruct c as [a|t m|i]; cbn [rstep legal is_solar] in *.
  - split; [|discriminate]. unfold act_ok, setSolarActivity. cbn [r_solar]. apply clamp01. exact L.
  - unfold setShielding, updateShielding. cbn [r_mat]. destruct (attenuation m) as ((x & y) & z). cbn [r_solar]. split; [exact A|intros _; lra].
  - unfold simulateSolarFlare. cbn [fst r_solar]. apply nneg_not in L. destruct (flare_act (r_solar r) i A L) as (B & C & _). split; [exact B|intros _; exact C].
Qed.

(** ** shielding *)
Lemma opp_mul_inf a b k : bnd a b k -> dmul (SFopp k) (S754_infinity false) = S754_infinity true.
Proof. intros B. destruct (bnd_shape _ _ _ B) as (m & e & ->). reflexivity. Qed.
Lemma att_neg a b k t : bnd a b k -> nneg t -> neg (dmul (SFopp k) t).
Proof.
  intros B N. pose proof BB_pos. destruct (nneg_cases t N) as [->|(O & P)].
  - rewrite (opp_mul_inf _ _ _ B). split; [split; [reflexivity|discriminate]|cbn [E]; lra].
  - destruct (mulE (SFopp k) t (opp_okd _ (proj1 B)) O) as (D & Q). split; [exact D|]. rewrite Q, opp_R. pose proof (bnd_pos _ _ _ B).
    assert (L : rnd64 (- R k * R t) <= 0). { rewrite <- rnd_0. apply (rnd_le 53 1024). nra. } unfold clampB. apply Rmax_lub; [lra|]. apply Rle_trans with (2 := L). apply Rmin_r.
Qed.
Lemma att_mono a b k t t' : bnd a b k -> nneg t -> nneg t' -> E t <= E t' -> E (dmul (SFopp k) t') <= E (dmul (SFopp k) t).
Proof.
  intros B N N' L. pose proof BB_pos. pose proof (bnd_pos _ _ _ B) as P. destruct (nneg_cases t' N') as [->|(O' & P')].
  - rewrite (opp_mul_inf _ _ _ B). cbn [E]. destruct (nneg_cases t N) as [->|(O & Q)]; [rewrite (opp_mul_inf _ _ _ B); cbn [E]; lra|].
    destruct (mulE (SFopp k) t (opp_okd _ (proj1 B)) O) as (_ & ->). unfold clampB. apply Rmax_l.
  - destruct (nneg_cases t N) as [->|(O & Q)]; [exfalso; cbn [E] in L; pose proof (E_bound _ O'); lra|].
    destruct (mulE (SFopp k) t (opp_okd _ (proj1 B)) O) as (_ & ->). destruct (mulE (SFopp k) t' (opp_okd _ (proj1 B)) O') as (_ & ->). apply clampB_mono, (rnd_le 53 1024). rewrite opp_R.
    rewrite !E_fin in L by (apply O || apply O'). nra.
Qed.
Definition att3 (P : sf -> Prop) (a : sf * sf * sf) : Prop := P (fst (fst a)) /\ P (snd (fst a)) /\ P (snd a).
Lemma att_bnd m : att3 (bnd (-20) 20) (attenuation m).
Proof. unfold attenuation. destruct (m =? 1)%Z; [|destruct (m =? 2)%Z]; (split; [|split]); cbn [fst snd]; apply lit_bnd; vm_compute; reflexivity. Qed.
Section X.
Variable fexp : sf -> sf.
Hypothesis X : exp_lib fexp.
Lemma upd_ok r : nneg (r_thick r) -> let r' := updateShielding fexp r in part_ok (r_e r') /\ part_ok (r_p r') /\ part_ok (r_h r') /\ r_solar r' = r_solar r /\ r_mission r' = r_mission r /\ r_thick r' = r_thick r /\ r_mat r' = r_mat r.
Proof.
  intros N. unfold updateShielding. destruct (att_bnd (r_mat r)) as (A & B & C). destruct (attenuation (r_mat r)) as ((x & y) & z). cbn [fst snd] in *. cbv zeta. cbn [r_e r_p r_h r_solar r_mission r_thick r_mat].
  repeat split; (eapply (neg_exp fexp X) || idtac); eapply att_neg; eassumption.
Qed.
Lemma new_ok g m : env_ok (renv_new fexp g m).
Proof.
  unfold renv_new. destruct (upd_ok (mkR m (dq 5 10) (dofZ 5) g d0 d0 d0 None)) as (A & B & C & D & _).
  - cbn [r_thick]. apply (nb_nneg 20). apply lit_nb. vm_compute. reflexivity.
  - cbn [r_solar] in D. split; [|split; [exact A|split; assumption]]. unfold act_ok. rewrite D. destruct half_nb as ((O & Z) & _). split; [exact O|change (b2 0) with 1 in Z; exact Z].
Qed.
Lemma step_ok r c : env_ok r -> legal c -> env_ok (rstep fexp r c).
Proof.
  intros (A & P) L. split; [apply step_act; assumption|]. destruct c as [a|t m|i]; cbn [rstep].
  - exact P.
  - unfold setShielding. destruct (upd_ok (mkR (r_mission r) (r_solar r) t m (r_e r) (r_p r) (r_h r) (r_decay r))) as (B & C & D & _); [cbn [r_thick]; apply nneg_not; exact L|]. split; [exact B|split; assumption].
  - exact P.
Qed.
Lemma run_ok cs : forall r, env_ok r -> Forall legal cs -> env_ok (rrun fexp r cs).
Proof. induction cs as [|c t IH]; intros r A F; [exact A|]. inversion F; subst. apply IH; [apply step_ok; assumption|assumption]. Qed.
Lemma made_ok g m cs : Forall legal cs -> env_ok (made fexp g m cs).
Proof. intros F. apply run_ok; [apply new_ok|exact F]. Qed.
Lemma run_mission cs : forall r, r_mission (rrun fexp r cs) = r_mission r.
Proof. induction cs as [|c t IH]; intros r; [reflexivity|]. unfold rrun. cbn [fold_left]. fold (rrun fexp (rstep fexp r c) t). rewrite IH. destruct c as [a|u m|i]; cbn [rstep]; try reflexivity.
  unfold setShielding, updateShielding. cbn [r_mat]. destruct (attenuation m) as ((x & y) & z). reflexivity. Qed.
(** a flare is forgotten only by setSolarActivity *)
Lemma run_act cs : forall r, act_ok r -> Forall legal cs -> Forall (fun c => is_solar c = false) cs -> R (r_solar r) <= R (r_solar (rrun fexp r cs)).
Proof.
  induction cs as [|c t IH]; intros r A F G; [apply Rle_refl|]. inversion F; subst. inversion G; subst. destruct (step_act fexp r c A H1) as (B & L). specialize (L H3). unfold rrun. cbn [fold_left].
  eapply Rle_trans; [exact L|]. apply IH; assumption.
Qed.
(** the shielding state after a history *)
Definition parts (r : renv) : sf * Z * sf * sf * sf := (r_thick r, r_mat r, r_e r, r_p r, r_h r).
Lemma upd_parts r r' : r_thick r = r_thick r' -> r_mat r = r_mat r' -> parts (updateShielding fexp r) = parts (updateShielding fexp r').
Proof. intros A B. unfold updateShielding, parts. rewrite A, B. destruct (attenuation (r_mat r')) as ((x & y) & z). reflexivity. Qed.
Definition shielded (t : sf) (m : Z) : sf * Z * sf * sf * sf :=
  let '(e, p, h) := attenuation m in (t, m, fexp (dmul (SFopp e) t), fexp (dmul (SFopp p) t), fexp (dmul (SFopp h) t)).
Lemma set_parts r t m : parts (setShielding fexp r t m) = shielded t m.
Proof. unfold setShielding, updateShielding, parts, shielded. cbn [r_mat r_thick]. destruct (attenuation m) as ((x & y) & z). reflexivity. Qed.
Lemma run_parts cs : forall r, parts (rrun fexp r cs) = match last_shield cs None with Some (t, m) => shielded t m | None => parts r end.
Proof.
  assert (G : forall cs r d, (match d with Some (t, m) => parts r = shielded t m | None => True end) ->
    parts (rrun fexp r cs) = match last_shield cs d with Some (t, m) => shielded t m | None => parts (rrun fexp r cs) end /\ (last_shield cs None = None -> parts (rrun fexp r cs) = parts r)).
  { induction cs0 as [|c t IH]; intros r d H; cbn [last_shield]; [split; [destruct d as [(t & m)|]; [exact H|reflexivity]|intros _; reflexivity]|].
    change (rrun fexp r (c :: t)) with (rrun fexp (rstep fexp r c) t). destruct c as [a|u m|i]; cbn [rstep].
    - destruct (IH (setSolarActivity r a) d) as (A & B); [destruct d as [(? & ?)|]; exact H|]. split; [exact A|exact B].
    - destruct (IH (setShielding fexp r u m) (Some (u, m))) as (A & _); [apply set_parts|]. split; [exact A|]. intros N. exfalso. revert N. clear. assert (G : forall cs p, last_shield cs (Some p) <> None) by (induction cs as [|[]]; intros; cbn [last_shield]; try apply IHcs; discriminate). apply G.
    - destruct (IH (fst (simulateSolarFlare r i)) d) as (A & B); [destruct d as [(? & ?)|]; exact H|]. split; [exact A|exact B]. }
  intros r. destruct (G cs r None I) as (A & B). destruct (last_shield cs None) as [(t & m)|]; [exact A|apply B; reflexivity].
Qed.
(** activity does not depend on the shielding *)
Lemma run_solar cs : forall r r', r_solar r = r_solar r' -> r_solar (rrun fexp r cs) = r_solar (rrun fexp r' cs).
Proof.
  induction cs as [|c t IH]; intros r r' H; [exact H|]. apply IH. destruct c as [a|u m|i]; cbn [rstep]; [reflexivity| |unfold simulateSolarFlare; cbn [fst r_solar]; rewrite H; reflexivity].
  unfold setShielding, updateShielding. cbn [r_mat]. destruct (attenuation m) as ((x & y) & z). exact H.
Qed.
End X.
