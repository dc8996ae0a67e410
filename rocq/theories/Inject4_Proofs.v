(** Proofs about the rates of RadiationSimulator. *)
From Coq Require Import String List NArith ZArith Bool Arith Lia SpecFloat Reals Lra.
Import ListNotations.
From Verif Require Import Outcome Words Floats FloatsR HealthFloat BitsFloat_Proofs RMA3_Proofs Power2_Proofs Edac_Model Edac_Spec Inject_Model Inject_Spec.
Local Open Scope R_scope.

(** two doubles in order between 0 and an integer *)
Definition le2 (b : Z) (x y : sf) : Prop := okd x /\ okd y /\ 0 <= R x <= R y /\ R y <= IZR b.
Lemma le2_refl b x : okd x -> 0 <= R x <= IZR b -> le2 b x x.
Proof. intros O H. unfold le2. repeat split; try apply O; lra. Qed.
Definition small (b : Z) : Prop := (0 <= b < 2 ^ 53)%Z.
Lemma small_mid b x : small b -> 0 <= x <= IZR b -> mid x.
Proof. intros [H1 H2] H. unfold mid. assert (IZR b <= IZR (2 ^ 53)) by (apply IZR_le; lia). change (IZR (2 ^ 53)) with 9007199254740992 in H0. lra. Qed.
Lemma rnd_in b x : small b -> 0 <= x <= IZR b -> 0 <= rnd64 x <= IZR b.
Proof. intros S H. split; [apply rnd_pos; apply H|]. rewrite <- (rnd_z b) by (destruct S; lia). apply rnd_mono. apply H. Qed.
Lemma le2_mul a b x x' y y' : le2 a x x' -> le2 b y y' -> small (a * b) -> le2 (a * b) (dmul x y) (dmul x' y').
Proof.
  intros (O1 & O2 & H1 & H2) (O3 & O4 & H3 & H4) S.
  assert (P1 : 0 <= R x * R y <= R x' * R y') by (split; [apply Rmult_le_pos; lra|apply Rmult_le_compat; lra]).
  assert (P2 : R x' * R y' <= IZR (a * b)) by (rewrite mult_IZR; apply Rmult_le_compat; lra).
  destruct (mul_d x y O1 O3) as [A1 A2]; [apply (small_mid (a * b)); [exact S|lra]|].
  destruct (mul_d x' y' O2 O4) as [B1 B2]; [apply (small_mid (a * b)); [exact S|lra]|].
  unfold le2. split; [exact A1|]. split; [exact B1|]. rewrite A2, B2. split.
  - split; [apply rnd_pos; lra|apply rnd_mono; lra].
  - apply (rnd_in (a * b)); [exact S|lra].
Qed.
Lemma le2_add a b x x' y y' : le2 a x x' -> le2 b y y' -> small (a + b) -> le2 (a + b) (dadd x y) (dadd x' y').
Proof.
  intros (O1 & O2 & H1 & H2) (O3 & O4 & H3 & H4) S.
  assert (P2 : R x' + R y' <= IZR (a + b)) by (rewrite plus_IZR; lra).
  destruct (add_d x y O1 O3) as [A1 A2]; [apply (small_mid (a + b)); [exact S|lra]|].
  destruct (add_d x' y' O2 O4) as [B1 B2]; [apply (small_mid (a + b)); [exact S|lra]|].
  unfold le2. split; [exact A1|]. split; [exact B1|]. rewrite A2, B2. split.
  - split; [apply rnd_pos; lra|apply rnd_mono; lra].
  - apply (rnd_in (a + b)); [exact S|lra].
Qed.
Lemma le2_div b n x x' (d : Z) : le2 n x x' -> (1 <= d < 2 ^ 53)%Z -> (n <= b * d)%Z -> small b -> le2 b (ddiv x (dofZ d)) (ddiv x' (dofZ d)).
Proof.
  intros (O1 & O2 & H1 & H2) Hd Hn S. destruct (ofZ_ex d) as [D1 D2]; [lia|].
  assert (Dp : 0 < IZR d) by (apply IZR_lt; lia).
  assert (Hx : R x' <= IZR b * IZR d) by (rewrite <- mult_IZR; eapply Rle_trans; [exact H2|apply IZR_le; exact Hn]).
  assert (Q : forall z, 0 <= z <= IZR b * IZR d -> 0 <= z / IZR d <= IZR b).
  { intros z Hz. split; [apply Rmult_le_pos; [lra|left; apply Rinv_0_lt_compat; exact Dp]|]. apply (Rmult_le_reg_r (IZR d)); [exact Dp|]. unfold Rdiv. rewrite Rmult_assoc, Rinv_l by lra. lra. }
  destruct (div_d x (dofZ d) O1 D1) as [A1 A2]; [lra|rewrite D2; apply (small_mid b); [exact S|apply Q; lra]|].
  destruct (div_d x' (dofZ d) O2 D1) as [B1 B2]; [lra|rewrite D2; apply (small_mid b); [exact S|apply Q; lra]|].
  unfold le2. split; [exact A1|]. split; [exact B1|]. rewrite A2, B2, D2. split.
  - split; [apply rnd_pos; apply Q; lra|]. apply rnd_mono. apply Rmult_le_compat_r; [left; apply Rinv_0_lt_compat; exact Dp|apply H1].
  - apply (rnd_in b); [exact S|apply Q; lra].
Qed.
Lemma le2_Z n b : (0 <= n <= b)%Z -> small b -> le2 b (dofZ n) (dofZ n).
Proof. intros H [S1 S2]. destruct (ofZ_ex n) as [A B]; [lia|]. apply le2_refl; [exact A|]. rewrite B. split; apply IZR_le; lia. Qed.
Lemma le2_trans b x y z : le2 b x y -> le2 b y z -> le2 b x z.
Proof. intros (A & B & C & D) (E & F & G & H). unfold le2. repeat split; try apply A; try apply F; lra. Qed.
Lemma le2_weak a b x y : le2 a x y -> (a <= b)%Z -> le2 b x y.
Proof. intros (A & B & C & D) H. apply IZR_le in H. unfold le2. repeat split; try apply A; try apply B; lra. Qed.
Ltac sm := unfold small; lia.
Lemma okd_fle x y : okd x -> okd y -> fle x y = true -> 0 <= R x -> forall b, R y <= IZR b -> le2 b x y.
Proof. intros A B C D b H. apply (fle_d x y A B) in C. unfold le2. repeat split; try apply A; try apply B; lra. Qed.
Lemma le2_lit n d : fle (dofZ 0) (dlit n d) = true -> fle (dlit n d) (dofZ 1) = true -> okd (dlit n d) -> le2 1 (dlit n d) (dlit n d).
Proof.
  intros A B O. destruct (ofZ_ex 0) as [Z1 Z2]; [lia|]. destruct (ofZ_ex 1) as [Y1 Y2]; [lia|]. apply (fle_d _ _ Z1 O) in A. apply (fle_d _ _ O Y1) in B.
  rewrite Z2 in A. rewrite Y2 in B. apply le2_refl; [exact O|]. lra.
Qed.
Ltac lit := apply le2_lit; [vm_compute; reflexivity|vm_compute; reflexivity|split; vm_compute; reflexivity].

(** the altitude factor *)
Definition alt_rate (alt : sf) : sf :=
  if fle alt (dofZ 1000) then dmul (dlit 1 1000) (dadd (dofZ 1) (ddiv alt (dofZ 1000)))
  else if fle alt (dofZ 36000) then dmul (dlit 1 1000) (dadd (dofZ 2) (ddiv alt (dofZ 10000)))
  else dmul (dlit 1 1000) (dofZ 5).
Lemma alt_le alt z : okd alt -> (0 <= z < 2 ^ 53)%Z -> fle alt (dofZ z) = true -> R alt <= IZR z.
Proof. intros O Hz H. destruct (ofZ_ex z) as [A B]; [lia|]. apply (fle_d _ _ O A) in H. rewrite B in H. exact H. Qed.
Lemma alt_gt alt z : okd alt -> (0 <= z < 2 ^ 53)%Z -> fle alt (dofZ z) = false -> IZR z < R alt.
Proof.
  intros O Hz H. destruct (ofZ_ex z) as [A B]; [lia|]. apply Rnot_le_lt. intros Q. rewrite <- B in Q. apply (fle_d _ _ O A) in Q. congruence.
Qed.
Lemma alt_mono x y : okd x -> okd y -> 0 <= R x <= R y -> (R y <= 36000 \/ 36000 < R x) -> le2 6 (alt_rate x) (alt_rate y).
Proof.
  intros Ox Oy H Hb. unfold alt_rate.
  destruct (fle x (dofZ 1000)) eqn:X1; [apply alt_le in X1; [|exact Ox|lia]|apply alt_gt in X1; [|exact Ox|lia]];
  (destruct (fle y (dofZ 1000)) eqn:Y1; [apply alt_le in Y1; [|exact Oy|lia]|apply alt_gt in Y1; [|exact Oy|lia]]); try lra.
  - change 6%Z with (1 * 6)%Z. apply le2_mul; [lit| |sm]. apply (le2_weak (1 + 1)); [|lia]. apply le2_add; [apply le2_Z; [lia|sm]| |sm].
    apply (le2_div 1 1000); [unfold le2; repeat split; try apply Ox; try apply Oy; lra|lia|lia|sm].
  - destruct Hb as [Hb|Hb]; [|lra].
    assert (Y36 : fle y (dofZ 36000) = true). { destruct (ofZ_ex 36000) as [A B]; [lia|]. apply (fle_d _ _ Oy A). rewrite B. exact Hb. }
    rewrite Y36. change 6%Z with (1 * 6)%Z. apply le2_mul; [lit| |sm].
    (* 1 + x/1000 <= 2 <= 2 + y/10000 *)
    apply (le2_trans 6 _ (dofZ 2)).
    + assert (A : le2 (1 + 1) (dadd (dofZ 1) (ddiv x (dofZ 1000))) (dadd (dofZ 1) (ddiv x (dofZ 1000)))).
      { apply le2_add; [apply le2_Z; [lia|sm]| |sm]. apply (le2_div 1 1000); [apply le2_refl; [exact Ox|lra]|lia|lia|sm]. }
      destruct A as (A1 & A2 & A3 & A4). destruct (ofZ_ex 2) as [T1 T2]; [lia|]. unfold le2. rewrite T2.
      split; [exact A1|]. split; [exact T1|]. change (IZR (1 + 1)) with 2 in A4. lra.
    + assert (A : le2 4 (ddiv y (dofZ 10000)) (ddiv y (dofZ 10000))).
      { apply (le2_div 4 36000); [apply le2_refl; [exact Oy|lra]|lia|lia|sm]. }
      destruct A as (A1 & A2 & A3 & A4). destruct (ofZ_ex 2) as [T1 T2]; [lia|].
      destruct (add_d (dofZ 2) (ddiv y (dofZ 10000)) T1 A1) as [C1 C2]; [rewrite T2; unfold mid; lra|].
      unfold le2. rewrite C2, T2. split; [exact T1|]. split; [exact C1|]. split; [split; [lra|]|].
      * rewrite <- (rnd_z 2) at 1 by reflexivity. apply rnd_mono. lra.
      * rewrite <- (rnd_z 6) by reflexivity. apply rnd_mono. lra.
  - destruct (fle x (dofZ 36000)) eqn:X2; [apply alt_le in X2; [|exact Ox|lia]|apply alt_gt in X2; [|exact Ox|lia]];
    (destruct (fle y (dofZ 36000)) eqn:Y2; [apply alt_le in Y2; [|exact Oy|lia]|apply alt_gt in Y2; [|exact Oy|lia]]); try lra.
    + change 6%Z with (1 * (2 + 4))%Z. apply le2_mul; [lit| |sm]. apply le2_add; [apply le2_Z; [lia|sm]| |sm].
      apply (le2_div 4 36000); [unfold le2; repeat split; try apply Ox; try apply Oy; lra|lia|lia|sm].
    + apply (le2_weak (1 * 5)); [|lia]. apply le2_mul; [lit|apply le2_Z; [lia|sm]|sm].
Qed.
Lemma within_le2 a x y : okd x -> okd y -> 0 <= R x <= R y -> R y <= IZR a -> le2 a x y.
Proof. intros. unfold le2. auto. Qed.

Lemma base_mono p e q f : sensible_env p e -> sensible_env q f -> harsher p e q f ->
  (R (altitude_km q) <= 36000 \/ 36000 < R (altitude_km p)) -> le2 540 (base_rate p e) (base_rate q f).
Proof.
  intros (P1 & P2 & [P3 P4] & [P5 P6] & [P7 P8]) (Q1 & Q2 & [Q3 Q4] & [Q5 Q6] & [Q7 Q8]) (H1 & H2 & H3 & H4 & H5 & H6) Hb.
  unfold base_rate. rewrite H1. change 540%Z with (540 * 1)%Z. apply le2_mul; [|unfold le2; repeat split; try apply P7; try apply Q7; lra|sm].
  set (r1 := if contains "Mars" (mission_name q) then _ else _). set (r2 := if contains "Mars" (mission_name q) then _ else _).
  assert (A : le2 18 r1 r2).
  { unfold r1, r2. destruct (contains "Mars" (mission_name q)); [apply (le2_weak 1); [lit|lia]|].
    destruct (contains "Lunar" (mission_name q) || contains "Moon" (mission_name q))%bool; [apply (le2_weak 1); [lit|lia]|].
    destruct (contains "Jupiter" (mission_name q)); [apply (le2_weak 1); [lit|lia]|].
    fold (alt_rate (altitude_km p)). fold (alt_rate (altitude_km q)). change 18%Z with (6 * (1 + 2))%Z. apply le2_mul; [| |sm].
    - apply alt_mono; try assumption; lra.
    - apply le2_add; [apply le2_Z; [lia|sm]| |sm]. apply (le2_div 2 180); [unfold le2; repeat split; try apply P3; try apply Q3; lra|lia|lia|sm]. }
  assert (B : le2 54 (dmul r1 (dadd (dofZ 1) (ddiv (solar_activity p) (dofZ 5)))) (dmul r2 (dadd (dofZ 1) (ddiv (solar_activity q) (dofZ 5))))).
  { change 54%Z with (18 * (1 + 2))%Z. apply le2_mul; [exact A| |sm]. apply le2_add; [apply le2_Z; [lia|sm]| |sm].
    apply (le2_div 2 10); [unfold le2; repeat split; try apply P5; try apply Q5; lra|lia|lia|sm]. }
  destruct (inside_saa p) eqn:Sp.
  - rewrite (H5 eq_refl). change 540%Z with (54 * 10)%Z. apply le2_mul; [exact B|apply le2_Z; [lia|sm]|sm].
  - destruct (inside_saa q).
    + assert (C : le2 (54 * 10) (dmul (dmul r2 (dadd (dofZ 1) (ddiv (solar_activity q) (dofZ 5)))) (dofZ 10)) (dmul (dmul r2 (dadd (dofZ 1) (ddiv (solar_activity q) (dofZ 5)))) (dofZ 10))).
      { apply le2_mul; [|apply le2_Z; [lia|sm]|sm]. apply (le2_refl 54); [apply B|]. destruct B as (B1 & B2 & B3 & B4). lra. }
      apply (le2_trans 540 _ (dmul r2 (dadd (dofZ 1) (ddiv (solar_activity q) (dofZ 5))))); [apply (le2_weak 54); [exact B|lia]|].
      destruct B as (B1 & B2 & B3 & B4). destruct C as (C1 & C2 & C3 & C4). change (IZR (54 * 10)) with 540 in C4. unfold le2. split; [exact B2|]. split; [exact C1|].
      split; [|exact C4]. split; [lra|]. destruct (ofZ_ex 10) as [T1 T2]; [lia|].
      set (v := dmul r2 _) in *. destruct (mul_d v (dofZ 10) B2 T1) as [M1 M2]; [rewrite T2; unfold mid; lra|].
      rewrite M2, T2. replace (R v) with (rnd64 (R v)) at 1 by (apply (rnd_R 53 1024); apply B2). apply rnd_mono. lra.
    + apply (le2_weak 54); [exact B|lia].
Qed.
Lemma rates_mono b x y : le2 b x y -> small (8 * b) -> (0 <= b)%Z ->
  le2 b (r_bit (update_rates x)) (r_bit (update_rates y)) /\ le2 b (r_multi (update_rates x)) (r_multi (update_rates y)) /\
  le2 b (r_latch (update_rates x)) (r_latch (update_rates y)) /\ le2 b (r_trans (update_rates x)) (r_trans (update_rates y)) /\
  le2 (4 * b) (r_total (update_rates x)) (r_total (update_rates y)).
Proof.
  intros H S Hb. unfold small in S. unfold update_rates. cbn [r_bit r_multi r_latch r_trans r_total].
  assert (M : forall n d, le2 1 (dlit n d) (dlit n d) -> le2 b (dmul x (dlit n d)) (dmul y (dlit n d))).
  { intros n d L. rewrite <- (Z.mul_1_r b). apply le2_mul; [exact H|exact L|sm]. }
  assert (A : le2 b (dmul x (dlit 8 10)) (dmul y (dlit 8 10))) by (apply M; lit).
  assert (B : le2 b (dmul x (dlit 15 100)) (dmul y (dlit 15 100))) by (apply M; lit).
  assert (C : le2 b (dmul x (dlit 3 100)) (dmul y (dlit 3 100))) by (apply M; lit).
  assert (D : le2 b (dmul x (dlit 2 100)) (dmul y (dlit 2 100))) by (apply M; lit).
  split; [exact A|]. split; [exact B|]. split; [exact C|]. split; [exact D|].
  replace (4 * b)%Z with (b + b + b + b)%Z by lia. apply le2_add; [|exact D|sm]. apply le2_add; [|exact C|sm]. apply le2_add; [exact A|exact B|sm].
Qed.
Lemma lit_le2 n d n' d' : fle (dofZ 0) (dlit n d) = true -> fle (dlit n d) (dlit n' d') = true -> fle (dlit n' d') (dofZ 1) = true -> okd (dlit n d) -> okd (dlit n' d') ->
  le2 1 (dlit n d) (dlit n' d').
Proof.
  intros A B C O1 O2. destruct (ofZ_ex 0) as [Z1 Z2]; [lia|]. destruct (ofZ_ex 1) as [Y1 Y2]; [lia|].
  apply (fle_d _ _ Z1 O1) in A. apply (fle_d _ _ O1 O2) in B. apply (fle_d _ _ O2 Y1) in C. rewrite Z2 in A. rewrite Y2 in C. unfold le2. repeat split; try apply O1; try apply O2; lra.
Qed.
Ltac lit2 := apply lit_le2; [vm_compute; reflexivity|vm_compute; reflexivity|vm_compute; reflexivity|split; vm_compute; reflexivity|split; vm_compute; reflexivity].
Lemma add_ge b x y : le2 b x x -> le2 b y y -> small (2 * b) -> (0 <= b)%Z -> R x <= R (dadd x y).
Proof.
  intros (A & _ & B & C) (D & _ & E & F) S Hb. unfold small in S. destruct (add_d x y A D) as [M1 M2].
  - apply (small_mid (b + b)); [sm|]. rewrite plus_IZR. lra.
  - rewrite M2. replace (R x) with (rnd64 (R x)) at 1 by (apply (rnd_R 53 1024); apply A). apply rnd_mono. lra.
Qed.
Lemma rates_order b x : le2 b x x -> small (8 * b) -> (0 <= b)%Z -> ordered_rates (update_rates x).
Proof.
  intros H S Hb. destruct (rates_mono b x x H S Hb) as (A & B & C & D & E). unfold small in S. unfold ordered_rates. split; [apply E|].
  assert (M : forall n d n' d', le2 1 (dlit n d) (dlit n' d') -> le2 b (dmul x (dlit n d)) (dmul x (dlit n' d'))).
  { intros n d n' d' L. rewrite <- (Z.mul_1_r b). apply le2_mul; [exact H|exact L|sm]. }
  assert (X1 : le2 b (r_trans (update_rates x)) (r_latch (update_rates x))) by (apply M; lit2).
  assert (X2 : le2 b (r_latch (update_rates x)) (r_multi (update_rates x))) by (apply M; lit2).
  assert (X3 : le2 b (r_multi (update_rates x)) (r_bit (update_rates x))) by (apply M; lit2).
  split; [apply X1|]. split; [split; [apply X2|apply X3]|].
  unfold update_rates in *. cbn [r_bit r_multi r_latch r_trans r_total] in *.
  assert (Y1 : le2 (b + b) (dadd (dmul x (dlit 8 10)) (dmul x (dlit 15 100))) (dadd (dmul x (dlit 8 10)) (dmul x (dlit 15 100)))) by (apply le2_add; [exact A|exact B|sm]).
  assert (Y2 : le2 (b + b + b) (dadd (dadd (dmul x (dlit 8 10)) (dmul x (dlit 15 100))) (dmul x (dlit 3 100))) (dadd (dadd (dmul x (dlit 8 10)) (dmul x (dlit 15 100))) (dmul x (dlit 3 100))))
    by (apply le2_add; [exact Y1|exact C|sm]).
  pose proof (add_ge b _ _ A B ltac:(sm) Hb). pose proof (add_ge (b + b) _ _ Y1 (le2_weak b (b + b) _ _ C ltac:(lia)) ltac:(sm) ltac:(lia)).
  pose proof (add_ge (b + b + b) _ _ Y2 (le2_weak b (b + b + b) _ _ D ltac:(lia)) ltac:(sm) ltac:(lia)). lra.
Qed.
Theorem rates_ok p e : sensible_env p e -> ordered_rates (update_rates (base_rate p e)) /\ R (r_total (update_rates (base_rate p e))) <= 2160.
Proof.
  intros H. assert (L : le2 540 (base_rate p e) (base_rate p e)).
  { apply base_mono; [exact H|exact H| |].
    - unfold harsher. split; [reflexivity|]. do 3 (split; [apply Rle_refl|]). split; [auto|apply Rle_refl].
    - destruct (Rle_dec (R (altitude_km p)) 36000); [left; assumption|right; lra]. }
  split; [apply (rates_order 540); [exact L|sm|lia]|]. destruct (rates_mono 540 _ _ L ltac:(sm) ltac:(lia)) as (_ & _ & _ & _ & E). apply E.
Qed.
Theorem rates_monotone p e q f : sensible_env p e -> sensible_env q f -> harsher p e q f -> (R (altitude_km q) <= 36000 \/ 36000 < R (altitude_km p)) ->
  let r := update_rates (base_rate p e) in let s := update_rates (base_rate q f) in
  R (r_bit r) <= R (r_bit s) /\ R (r_multi r) <= R (r_multi s) /\ R (r_latch r) <= R (r_latch s) /\ R (r_trans r) <= R (r_trans s) /\ R (r_total r) <= R (r_total s).
Proof.
  intros H1 H2 H3 H4. pose proof (base_mono p e q f H1 H2 H3 H4) as L. destruct (rates_mono 540 _ _ L ltac:(sm) ltac:(lia)) as (A & B & C & D & E).
  cbv zeta. split; [apply A|]. split; [apply B|]. split; [apply C|]. split; [apply D|apply E].
Qed.

Lemma missions_sensible name e : within 0 1 e -> sensible_env (mission_environment name) e.
Proof.
  intros H.
  assert (Z : forall n b, (0 <= n <= b)%Z -> (b < 2 ^ 53)%Z -> within 0 (IZR b) (dofZ n)).
  { intros n b Hn Hb. destruct (ofZ_ex n) as [A B]; [lia|]. split; [exact A|]. rewrite B. split; apply IZR_le; lia. }
  assert (I : within 0 180 (dlit 516 10)).
  { assert (O : okd (dlit 516 10)) by (split; vm_compute; reflexivity). split; [exact O|]. destruct (ofZ_ex 0) as [A B]; [lia|]. destruct (ofZ_ex 180) as [C D]; [lia|].
    rewrite <- B, <- D. split; [apply (fle_d _ _ A O)|apply (fle_d _ _ O C)]; vm_compute; reflexivity. }
  assert (M : forall a b c s sh n, (0 <= a < 2 ^ 53)%Z -> (b = dlit 516 10 \/ b = dofZ 45 \/ b = dofZ 0) -> (0 <= c <= 10)%Z -> sensible_env (mkEnv (dofZ a) b (dofZ c) s sh n) e).
  { intros a b c s sh n Ha Hb Hc. unfold sensible_env. cbn [altitude_km inclination_deg solar_activity]. destruct (Z a a ltac:(lia) ltac:(lia)) as [O R]. split; [exact O|]. split; [apply R|].
    split; [|split; [apply Z; lia|exact H]]. destruct Hb as [->|[->| ->]]; [exact I|apply (Z 45 180)%Z; lia|apply (Z 0 180)%Z; lia]. }
  unfold mission_environment. repeat match goal with |- context [if ?b then _ else _] => destruct b end; apply M; auto; lia.
Qed.
Theorem beyond_geo : exists p q e, sensible_env p e /\ sensible_env q e /\ harsher p e q e /\
  flt (r_total (update_rates (base_rate q e))) (r_total (update_rates (base_rate p e))) = true.
Proof.
  set (orb := fun a => mkEnv (dofZ a) (dofZ 0) (dofZ 3) false (dofZ 5) "Geostationary Orbit").
  destruct (ofZ_ex 36000) as [A1 A2]; [lia|]. destruct (ofZ_ex 40000) as [B1 B2]; [lia|]. destruct (ofZ_ex 0) as [Z1 Z2]; [lia|]. destruct (ofZ_ex 3) as [T1 T2]; [lia|].
  destruct (ofZ_ex 1) as [O1 O2]; [lia|].
  exists (orb 36000%Z), (orb 40000%Z), (dofZ 1).
  assert (W : within 0 180 (dofZ 0) /\ within 0 10 (dofZ 3) /\ within 0 1 (dofZ 1)) by (unfold within; rewrite Z2, T2, O2; repeat split; try apply Z1; try apply T1; try apply O1; lra).
  destruct W as (W1 & W2 & W3).
  split; [split; [exact A1|split; [change (0 <= R (dofZ 36000)); rewrite A2; lra|split; [exact W1|split; [exact W2|exact W3]]]]|].
  split; [split; [exact B1|split; [change (0 <= R (dofZ 40000)); rewrite B2; lra|split; [exact W1|split; [exact W2|exact W3]]]]|].
  split; [|vm_compute; reflexivity].
  unfold harsher, orb. cbn [mission_name altitude_km inclination_deg solar_activity inside_saa]. rewrite A2, B2.
  split; [reflexivity|]. split; [lra|]. split; [apply Rle_refl|]. split; [apply Rle_refl|]. split; [auto|apply Rle_refl].
Qed.
