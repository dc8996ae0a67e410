From Coq Require Import List NArith ZArith Bool Lia SpecFloat.
Import ListNotations.
From Verif Require Import Outcome Words Arith Floats Crc_Model CrcTMR_Model CrcTMR_Spec CrcTMR_Proofs.
Local Open Scope N_scope.

(** *** order and equality of finite patterns *)
Lemma SFcompare_anti x y : SFcompare y x = match SFcompare x y with Some c => Some (CompOpp c) | None => None end.
Proof.
  destruct x as [[]|[]| |[] p e], y as [[]|[]| |[] q f]; cbn; try reflexivity;
    rewrite (Z.compare_antisym e f); destruct (e ?= f)%Z eqn:E; cbn; try reflexivity;
    pose proof (Pos.compare_antisym p q) as A; unfold Pos.compare in A; rewrite A, ?CompOpp_involutive; reflexivity.
Qed.
Lemma SFcompare_eq_finite s p e s' p' e' :
  SFcompare (S754_finite s p e) (S754_finite s' p' e') = Some Eq -> s = s' /\ p = p' /\ e = e'.
Proof.
  destruct s, s'; cbn; try discriminate; destruct (Z.compare_spec e e') as [->|?|?]; try discriminate;
    intros H; injection H as H; repeat split; auto.
  - apply (Pos.compare_eq p p'). unfold Pos.compare.
    destruct (Pos.compare_cont Eq p p'); cbn in H; try discriminate; reflexivity.
  - apply (Pos.compare_eq p p'). exact H.
Qed.

(* decoding of a pattern into sign / exponent / mantissa *)
Lemma decode m e x : x < 2 ^ (m + e + 1) ->
  x = N.b2n (N.testbit x (m + e)) * 2 ^ (m + e) + f_exp m e x * 2 ^ m + f_mant m x /\
  f_exp m e x < 2 ^ e /\ f_mant m x < 2 ^ m.
Proof.
  intros Hx. unfold f_exp, f_mant.
  assert (Pm : 2 ^ m <> 0) by (apply N.pow_nonzero; discriminate).
  assert (Pe : 2 ^ e <> 0) by (apply N.pow_nonzero; discriminate).
  split; [|split; apply N.mod_lt; assumption].
  rewrite N.testbit_spec'. rewrite N.pow_add_r.
  rewrite (N.mod_small (x / (2 ^ m * 2 ^ e)) 2).
  - rewrite <- N.div_div by assumption.
    pose proof (N.div_mod x (2 ^ m) Pm). pose proof (N.div_mod (x / 2 ^ m) (2 ^ e) Pe). nia.
  - apply N.div_lt_upper_bound; [nia|]. rewrite <- N.pow_add_r.
    replace (2 ^ (m + e) * 2) with (2 ^ (m + e + 1)); [exact Hx|]. rewrite (N.pow_add_r 2 (m + e) 1). reflexivity.
Qed.

Lemma sf_finite_shape m e x : (0 < m) -> negb (f_exp m e x =? 2 ^ e - 1) = true ->
  (f_zero m e x = true /\ exists s, sf_of_bits m e x = S754_zero s) \/
  (f_zero m e x = false /\ exists p z, sf_of_bits m e x = S754_finite (N.testbit x (m + e)) p z /\
     ((f_exp m e x = 0 /\ Npos p = f_mant m x /\ z = (1 - (2 ^ (Z.of_N e - 1) - 1) - Z.of_N m)%Z) \/
      (f_exp m e x <> 0 /\ Npos p = 2 ^ m + f_mant m x /\
       z = (Z.of_N (f_exp m e x) - (2 ^ (Z.of_N e - 1) - 1) - Z.of_N m)%Z))).
Proof.
  intros Hm Hf. apply negb_true_iff in Hf. unfold sf_of_bits, f_zero. rewrite Hf.
  destruct (N.eqb_spec (f_exp m e x) 0) as [E0|E0].
  - destruct (f_mant m x) as [|p] eqn:M; [left; split; [reflexivity|eexists; reflexivity]|].
    right. split; [reflexivity|]. eexists p, _. split; [reflexivity|]. left. auto.
  - right. split; [reflexivity|]. destruct (2 ^ m + f_mant m x) as [|p] eqn:M.
    + exfalso. assert (2 ^ m <> 0) by (apply N.pow_nonzero; discriminate). lia.
    + eexists p, _. split; [reflexivity|]. right. auto.
Qed.

Lemma compare_eq_same m e x y : 0 < m -> x < 2 ^ (m + e + 1) -> y < 2 ^ (m + e + 1) ->
  negb (f_exp m e x =? 2 ^ e - 1) = true -> negb (f_exp m e y =? 2 ^ e - 1) = true ->
  SFcompare (sf_of_bits m e x) (sf_of_bits m e y) = Some Eq ->
  x = y \/ (f_zero m e x = true /\ f_zero m e y = true).
Proof.
  intros Hm Hx Hy Fx Fy E.
  destruct (decode m e x Hx) as [Dx [Lx Mx]]. destruct (decode m e y Hy) as [Dy [Ly My]].
  destruct (sf_finite_shape m e x Hm Fx) as [[Zx [sx Ex]]|[Zx [p [z [Ex Cx]]]]];
  destruct (sf_finite_shape m e y Hm Fy) as [[Zy [sy Ey]]|[Zy [q [w [Ey Cy]]]]]; rewrite Ex, Ey in E.
  - right. auto.
  - exfalso. cbn in E. destruct (N.testbit y (m + e)); discriminate.
  - exfalso. cbn in E. destruct (N.testbit x (m + e)); discriminate.
  - left. apply SFcompare_eq_finite in E as [Es [<- <-]].
    assert (K : f_exp m e x = f_exp m e y /\ f_mant m x = f_mant m y).
    { destruct Cx as [[A1 [A2 A3]]|[A1 [A2 A3]]], Cy as [[B1 [B2 B3]]|[B1 [B2 B3]]].
      - split; congruence.
      - exfalso. lia.
      - exfalso. lia.
      - split; lia. }
    destruct K as [K1 K2]. rewrite Dx, Dy, Es, K1, K2. reflexivity.
Qed.

Lemma fl_width t : is_int t = false -> width t = mbits t + ebits t + 1.
Proof. destruct t; try discriminate; reflexivity. Qed.
Lemma finite_not_nan t x : is_int t = false -> is_finite t x = true -> is_nan t x = false.
Proof.
  intros Hi H. unfold is_finite in H. apply negb_true_iff in H.
  destruct t; try discriminate; cbn [is_nan mbits ebits] in *; unfold f_nan; rewrite H; reflexivity.
Qed.
Lemma lt_total t x y : is_int t = false -> valid t x -> valid t y -> is_finite t x = true -> is_finite t y = true ->
  eqT t x y = false -> ltT t x y = false -> ltT t y x = true.
Proof.
  intros Hi Hx Hy Fx Fy Hne H. unfold ltT, flt, SFltb in *.
  unfold sf_of in *. rewrite (SFcompare_anti (sf_of_bits (mbits t) (ebits t) x)).
  destruct (SFcompare (sf_of_bits (mbits t) (ebits t) x) (sf_of_bits (mbits t) (ebits t) y)) as [[]|] eqn:C; try reflexivity; try discriminate.
  - exfalso. unfold valid in *. rewrite (fl_width t Hi) in Hx, Hy.
    apply (compare_eq_same (mbits t) (ebits t) x y) in C; try assumption; [|destruct t; reflexivity].
    pose proof (finite_not_nan t x Hi Fx) as Nx. pose proof (finite_not_nan t y Hi Fy) as Ny.
    rewrite eqT_spec, Nx, Ny in Hne. cbn [negb andb] in Hne. apply orb_false_iff in Hne as [N1 N2].
    destruct C as [C|[Z1 Z2]]; [subst; rewrite N.eqb_refl in N1; discriminate|].
    rewrite Hi in N2. cbn in N2. destruct t; try discriminate; cbn in N2, Z1, Z2; rewrite Z1, Z2 in N2; discriminate.
  - exfalso. unfold is_finite in Fx, Fy.
    destruct (sf_finite_shape (mbits t) (ebits t) x ltac:(destruct t; reflexivity) Fx) as [[_ [sx Ex]]|[_ [p [z [Ex _]]]]];
    destruct (sf_finite_shape (mbits t) (ebits t) y ltac:(destruct t; reflexivity) Fy) as [[_ [sy Ey]]|[_ [q [w [Ey _]]]]];
    rewrite Ex, Ey in C; cbn in C; try discriminate;
    repeat match goal with H : context [if ?b then _ else _] |- _ => destruct b end; try discriminate;
    destruct (z ?= w)%Z; discriminate.
Qed.

(** *** median *)
Lemma median_in t a b c : In (median3 t a b c) [a; b; c].
Proof.
  unfold median3. cbn [insert_sorted]. destruct (ltT t b a); cbn [insert_sorted].
  - destruct (ltT t c b); [cbn; auto|]. destruct (ltT t c a); cbn; auto.
  - destruct (ltT t c a); [cbn; auto|]. destruct (ltT t c b); cbn; auto.
Qed.

Lemma median_mid t a b c : is_int t = false -> valid t a -> valid t b -> valid t c -> fin3 t a b c ->
  no_pair t a b c ->
  exists lo hi, In lo [a; b; c] /\ In hi [a; b; c] /\
    ltT t lo (median3 t a b c) = true /\ ltT t (median3 t a b c) hi = true.
Proof.
  intros Hi Va Vb Vc [Fa [Fb Fc]] [Nab [Nac Nbc]].
  pose proof (lt_total t) as T.
  unfold median3. cbn [insert_sorted].
  destruct (ltT t b a) eqn:Lba; cbn [insert_sorted].
  - destruct (ltT t c b) eqn:Lcb; cbn [nth].
    + exists c, a. cbn; auto 6.
    + assert (ltT t b c = true) by (apply T; auto; rewrite eqT_sym; assumption).
      destruct (ltT t c a) eqn:Lca; cbn [nth].
      * exists b, a. cbn; auto 6.
      * exists b, c. cbn. repeat split; auto. apply T; auto. rewrite eqT_sym. assumption.
  - assert (Lab : ltT t a b = true) by (apply T; auto; rewrite eqT_sym; assumption).
    destruct (ltT t c a) eqn:Lca; cbn [nth].
    + exists c, b. cbn; auto 6.
    + assert (ltT t a c = true) by (apply T; auto; rewrite eqT_sym; assumption).
      destruct (ltT t c b) eqn:Lcb; cbn [nth].
      * exists a, b. cbn; auto 6.
      * exists a, c. cbn. repeat split; auto. apply T; auto. rewrite eqT_sym. assumption.
Qed.

Lemma sp_majority_median t fuel s : is_int t = false ->
  let a := cv (c0 s) in let b := cv (c1 s) in let c := cv (c2 s) in
  valid t a -> valid t b -> valid t c -> fin3 t a b c -> no_pair t a b c ->
  sp_majority t fuel s = Ret (median3 t a b c).
Proof.
  intros Hi a b c Va Vb Vc [Fa [Fb Fc]] [Nab [Nac Nbc]].
  unfold sp_majority, findBestFloatFallback. fold a b c. rewrite Nab, Nac, Nbc, Hi, Fa, Fb, Fc. reflexivity.
Qed.

(** *** finite data stays finite *)
Lemma finite_mask t x : is_int t = false ->
  is_finite t x = negb (N.land x (N.shiftl (2 ^ ebits t - 1) (mbits t)) =? N.shiftl (2 ^ ebits t - 1) (mbits t)).
Proof.
  intros Hi. unfold is_finite. f_equal.
  assert (E : N.land x (N.shiftl (2 ^ ebits t - 1) (mbits t)) = N.shiftl (f_exp (mbits t) (ebits t) x) (mbits t)).
  { unfold f_exp. rewrite <- N.pred_sub, <- N.ones_equiv. apply N.bits_inj. intros i. rewrite N.land_spec.
    destruct (N.ltb_spec i (mbits t)) as [G|G].
    - rewrite !N.shiftl_spec_low by exact G. apply andb_false_r.
    - rewrite !N.shiftl_spec_high' by exact G. rewrite <- N.land_ones, N.land_spec, <- N.shiftr_div_pow2.
      rewrite N.shiftr_spec'. f_equal. f_equal. lia. }
  rewrite E. destruct (N.eqb_spec (f_exp (mbits t) (ebits t) x) (2 ^ ebits t - 1)) as [->|K].
  - rewrite N.eqb_refl. reflexivity.
  - symmetry. apply N.eqb_neq. intros F. apply K.
    apply (f_equal (fun z => N.shiftr z (mbits t))) in F. rewrite !N.shiftr_shiftl_l, N.sub_diag, !N.shiftl_0_r in F by lia.
    exact F.
Qed.

Lemma fallback_finite t a b c : fin3 t a b c -> is_finite t (findBestFloatFallback t a b c) = true.
Proof.
  intros [Fa [Fb Fc]]. unfold findBestFloatFallback. rewrite Fa, Fb, Fc. cbn [andb].
  destruct (median_in t a b c) as [<-|[<-|[<-|[]]]]; assumption.
Qed.
Lemma structured_finite t a b c : is_int t = false -> fin3 t a b c -> is_finite t (structuredVote t a b c) = true.
Proof.
  intros Hi F. unfold structuredVote.
  match goal with |- context [if ?l =? ?m then _ else _] => set (mask := m) end.
  match goal with |- context [N.land ?r mask =? mask] => set (res := r) end.
  destruct (N.land res mask =? mask) eqn:E; [apply fallback_finite; exact F|].
  destruct (is_nan t res || is_inf t res); [apply fallback_finite; exact F|].
  rewrite finite_mask by exact Hi. fold mask. rewrite E. reflexivity.
Qed.
Lemma vote_finite t : is_int t = false -> forall fuel a b c v,
  (exists x, In x [a; b; c] /\ is_finite t x = true) ->
  bitLevelVoteFloat t fuel a b c = Ret v -> is_finite t v = true.
Proof.
  intros Hi. induction fuel as [|k IH]; intros a b c v [x [Hx Fx]] H; [discriminate|].
  cbn [bitLevelVoteFloat] in H.
  destruct (isSpecialFloat t a || isSpecialFloat t b || isSpecialFloat t c) eqn:Sp.
  - assert (Fin : forall f, In f (filter (is_finite t) [a; b; c]) -> is_finite t f = true)
      by (intros f Hf; apply filter_In in Hf; apply Hf).
    assert (Hin : In x (filter (is_finite t) [a; b; c])) by (apply filter_In; auto).
    destruct (filter (is_finite t) [a; b; c]) as [|f0 [|f1 r]]; [contradiction| |].
    + inversion H; subst. apply Fin. left. reflexivity.
    + destruct (close t f0 f1); [inversion H; subst; apply Fin; left; reflexivity|].
      apply IH in H; [exact H|]. exists f0. split; [left; reflexivity|apply Fin; left; reflexivity].
  - inversion H; subst. apply structured_finite; [exact Hi|].
    apply orb_false_iff in Sp as [Sp Sc]. apply orb_false_iff in Sp as [Sa Sb].
    assert (K : forall y, isSpecialFloat t y = false -> is_finite t y = true).
    { intros y Hy. destruct (is_finite t y) eqn:F; [reflexivity|]. rewrite (not_finite_special t y Hi F) in Hy. discriminate. }
    repeat split; apply K; assumption.
Qed.
Lemma sp_majority_finite t fuel s v : is_int t = false ->
  let a := cv (c0 s) in let b := cv (c1 s) in let c := cv (c2 s) in
  no_pair t a b c -> (exists x, In x [a; b; c] /\ is_finite t x = true) ->
  sp_majority t fuel s = Ret v -> is_finite t v = true.
Proof.
  intros Hi a b c [Nab [Nac Nbc]] Hx. unfold sp_majority. fold a b c. rewrite Nab, Nac, Nbc, Hi.
  destruct (is_finite t a && is_finite t b && is_finite t c) eqn:F.
  - intros H; inversion H; subst. apply fallback_finite.
    apply andb_true_iff in F as [F Fc]. apply andb_true_iff in F as [Fa Fb]. repeat split; assumption.
  - apply vote_finite; assumption.
Qed.
(** at least one finite copy with a valid checksum or no pair: get's value is finite *)
Lemma sp_get_finite t fuel s v st s' : is_int t = false ->
  let a := cv (c0 s) in let b := cv (c1 s) in let c := cv (c2 s) in
  votes (sp_crc t) s -> no_pair t a b c -> (exists x, In x [a; b; c] /\ is_finite t x = true) ->
  sp_get t fuel s = Ret (v, st, s') -> is_finite t v = true.
Proof.
  intros Hi a b c Hv Hn Hx. unfold sp_get. destruct Hv as [-> | ->]; cbn [N.eqb].
  - destruct (sp_majority t fuel s) as [w| | |] eqn:M; cbn [obind]; intros E; try discriminate.
    injection E as Ew _ _. subst w. apply (sp_majority_finite t fuel s); assumption.
  - change (3 =? 0) with false. cbn. destruct (sp_majority t fuel s) as [w| | |] eqn:M; cbn [obind]; intros E; try discriminate.
    injection E as Ew _ _. subst w. apply (sp_majority_finite t fuel s); assumption.
Qed.

(** verify() does not compare the copies *)
Lemma sp_verify_blind t s v w : sp_verify t (corrupt (set (sp_crc t) s v) 0 (mkcell w (sp_crc t w))) = SUCCESS.
Proof. unfold sp_verify, corrupt. cbn [c0 c1 c2 set]. rewrite !vc_set. reflexivity. Qed.
Lemma sp_verify_sound t s v x y z : valid t v -> valid t x -> valid t y -> valid t z ->
  (x = v \/ burst32 v x) -> (y = v \/ burst32 v y) -> (z = v \/ burst32 v z) ->
  sp_verify t (hit_values (sp_crc t) s v x y z) = SUCCESS -> x = v /\ y = v /\ z = v.
Proof.
  intros Hv Hx Hy Hz Bx By Bz H.
  assert (St : forall w, valid t w -> burst32 v w -> verifyChecksum (sp_crc t) (mkcell w (sp_crc t v)) = false)
    by (intros w Hw B; apply (vc_stale t (sp_crc t) (sp_et_crc t)); assumption).
  unfold sp_verify, hit_values in H. cbn [c0 c1 c2 cv] in H.
  destruct Bx as [Ex|Bx]; destruct By as [Ey|By]; destruct Bz as [Ez|Bz]; auto; exfalso;
    rewrite ?Ex, ?Ey, ?Ez, ?vc_set, ?(St x Hx Bx), ?(St y Hy By), ?(St z Hz Bz) in H; cbn -[eqT] in H;
    match type of H with (if ?b then _ else _) = _ => destruct b end; discriminate.
Qed.

(** *** corollaries used by the property file *)
Lemma int_refl t v : is_int t = true -> eqT t v v = true.
Proof. intros Hi. rewrite (eqT_int t) by exact Hi. apply N.eqb_refl. Qed.
Lemma et_one_corrupt_int t s v k c : is_int t = true -> fst (et_get t (corrupt (set (et_crc t) s v) k c)) = v.
Proof.
  intros Hi. destruct (et_one_corrupt t s v k c (int_refl t v Hi)) as [H _].
  rewrite (eqT_int t) in H by exact Hi. apply N.eqb_eq. exact H.
Qed.
Lemma sp_one_corrupt_int t fuel s v k c : is_int t = true ->
  exists s', sp_get t fuel (corrupt (set (sp_crc t) s v) k c) = Ret (v, SUCCESS, s').
Proof.
  intros Hi. destruct (sp_one_corrupt t fuel s v k c (int_refl t v Hi)) as [r [s' [E [H _]]]].
  rewrite (eqT_int t) in H by exact Hi. apply N.eqb_eq in H. subst r. exists s'. exact E.
Qed.
Lemma et_survivor_small t s v x y z : sizeof t <= 4 ->
  valid t v -> valid t x -> valid t y -> valid t z -> (x = v \/ y = v \/ z = v) ->
  fst (et_get t (hit_values (et_crc t) s v x y z)) = v.
Proof.
  intros Hs Hv Hx Hy Hz H.
  assert (B : forall w, valid t w -> w = v \/ burst32 v w).
  { intros w Hw. destruct (N.eq_dec w v); [left; assumption|right; apply (small_burst t); assumption]. }
  apply et_survivor; auto.
Qed.
Lemma sp_get_int_terminates t s : is_int t = true -> exists r, forall fuel, sp_get t (S (S fuel)) s = Ret r.
Proof. intros Hi. apply (sp_get_cases t s). intros [_ [H _]]. congruence. Qed.
Lemma sp_get_hangs :
  (forall fuel, sp_get F32 fuel (mk3 (mkcell 0 0) (mkcell 0x40A00000 0) (mkcell 0x7FC00000 0) 0 0 0) = OutOfFuel) /\
  (forall fuel, sp_get F64 fuel (mk3 (mkcell 0 0) (mkcell 0x4014000000000000 0) (mkcell 0x7FF8000000000000 0) 0 0 0) = OutOfFuel).
Proof.
  split; apply sp_get_cases; cbn [c0 c1 c2 cv]; (split; [right; vm_compute; reflexivity|]);
    (split; [reflexivity|]); (split; [vm_compute; auto|]).
  - exists 0, 0x40A00000. vm_compute. auto.
  - exists 0, 0x4014000000000000. vm_compute. auto.
Qed.
Lemma sp_hang_reachable v : exists x y z, forall fuel,
  sp_get F32 fuel (corrupt (corrupt (corrupt (construct (sp_crc F32) v) 0 x) 1 y) 2 z) = OutOfFuel.
Proof.
  exists (mkcell 0 0), (mkcell 0x40A00000 0), (mkcell 0x7FC00000 0).
  exact (proj1 sp_get_hangs).
Qed.
Lemma et_nan t s v w : is_nan t v = true ->
  et_verify t (set (et_crc t) s v) = false /\
  fst (et_get t (corrupt (set (et_crc t) s v) 0 (mkcell w (et_crc t w)))) = w.
Proof. intros H. split; [apply et_nan_unverifiable|apply et_nan_lost]; exact H. Qed.
Lemma et_nan_values t s v x : is_nan t v = true -> valid t v -> valid t x -> burst32 v x ->
  fst (et_get t (hit_values (et_crc t) s v x v v)) = v /\
  fst (et_get t (hit_values (et_crc t) s v v x v)) = v /\
  fst (et_get t (hit_values (et_crc t) s v v v x)) = v.
Proof. intros _ Hv Hx B. repeat split; apply et_survivor; auto. Qed.
Lemma sp_get_median t fuel s : is_int t = false ->
  let a := cv (c0 s) in let b := cv (c1 s) in let c := cv (c2 s) in
  valid t a -> valid t b -> valid t c -> fin3 t a b c -> no_pair t a b c -> votes (sp_crc t) s ->
  exists m st s', sp_get t fuel s = Ret (m, st, s') /\ In m [a; b; c] /\
    exists lo hi, In lo [a; b; c] /\ In hi [a; b; c] /\ ltT t lo m = true /\ ltT t m hi = true.
Proof.
  intros Hi a b c Va Vb Vc F Np Hv. exists (median3 t a b c).
  pose proof (sp_majority_median t fuel s Hi Va Vb Vc F Np) as M.
  assert (E : exists st s', sp_get t fuel s = Ret (median3 t a b c, st, s')).
  { unfold sp_get. rewrite M. destruct Hv as [-> | ->]; cbn; eauto. }
  destruct E as [st [s' E]]. exists st, s'. split; [exact E|]. split; [apply median_in|].
  apply median_mid; assumption.
Qed.
