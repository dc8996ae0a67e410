From Coq Require Import List NArith ZArith Bool Lia Reals Lra SpecFloat Sorting.Sorted.
From Flocq.IEEE754 Require BinarySingleNaN.
Import ListNotations.
From Verif Require Import Outcome Words Floats FloatsR HealthFloat Bits_Model PNN_Model Train_Model RMA3_Proofs Strat6_Proofs Tester_Model Tester_Spec Tester_Proofs Search_Model Search_Spec.
Local Open Scope N_scope.

(** ** lists of sizes *)
Lemma list_eqb_iff a : forall b, list_eqb a b = true <-> a = b.
Proof.
  induction a as [|x a IH]; intros [|y b]; cbn [list_eqb]; try (split; [discriminate|discriminate]); [split; reflexivity|].
  rewrite andb_true_iff, N.eqb_eq, IH. split; [intros [-> ->]; reflexivity|intros E; injection E; auto].
Qed.
Lemma list_eqb_refl a : list_eqb a a = true. Proof. apply list_eqb_iff. reflexivity. Qed.
Lemma list_ltb_irrefl a : list_ltb a a = false.
Proof. induction a as [|x a IH]; cbn [list_ltb]; [reflexivity|]. rewrite N.ltb_irrefl. exact IH. Qed.
Lemma list_ltb_trans a : forall b c, list_ltb a b = true -> list_ltb b c = true -> list_ltb a c = true.
Proof.
  induction a as [|x a IH]; intros [|y b] [|z c]; cbn [list_ltb]; try discriminate; [reflexivity|].
  destruct (N.ltb_spec x y), (N.ltb_spec y z); intros A B.
  - destruct (N.ltb_spec x z); [reflexivity|lia].
  - destruct (N.ltb_spec z y); [discriminate B|]. destruct (N.ltb_spec x z); [reflexivity|lia].
  - destruct (N.ltb_spec y x); [discriminate A|]. destruct (N.ltb_spec x z); [reflexivity|lia].
  - destruct (N.ltb_spec y x); [discriminate A|]. destruct (N.ltb_spec z y); [discriminate B|].
    destruct (N.ltb_spec x z); [reflexivity|]. destruct (N.ltb_spec z x); [lia|]. exact (IH _ _ A B).
Qed.
Lemma list_ltb_total a : forall b, a <> b -> list_ltb a b = true \/ list_ltb b a = true.
Proof.
  induction a as [|x a IH]; intros [|y b] NE; cbn [list_ltb]; try tauto.
  destruct (N.ltb_spec x y); [tauto|]. destruct (N.ltb_spec y x); [tauto|]. assert (x = y) by lia. subst y. apply IH. congruence.
Qed.
Lemma list_ltb_asym a b : list_ltb a b = true -> list_ltb b a = false.
Proof. intros H. destruct (list_ltb b a) eqn:E; [|reflexivity]. pose proof (list_ltb_trans _ _ _ H E) as T. rewrite list_ltb_irrefl in T. discriminate T. Qed.
Lemma level_index_inj p q : level_index p = level_index q -> p = q.
Proof. destruct p, q; cbn; (reflexivity || discriminate). Qed.

(** ** dropout rates *)
Lemma zero_tol sg : fge (SFabs (S754_zero sg)) tolerance = false.
Proof. destruct sg; vm_compute; reflexivity. Qed.
Lemma R_zero x : okd x -> R x = 0%R -> exists sg, x = S754_zero sg.
Proof.
  intros O E. destruct x as [sg|sg| |sg m e]; [exists sg; reflexivity|destruct O; discriminate|destruct O; discriminate|]. exfalso.
  revert E. unfold R. apply Float_prop.F2R_neq_0. destruct sg; discriminate.
Qed.
Lemma distance_self01 a : inr 0 1 a -> fge (distance a a) tolerance = false.
Proof.
  intros [Oa Ba]. unfold distance. destruct (sub_d a a Oa Oa) as [Os Es]; [unfold mid; lra|]. rewrite Rminus_diag_eq in Es by reflexivity. rewrite (rnd64_Z 0) in Es by lia.
  destruct (R_zero _ Os Es) as [sg ->]. apply zero_tol.
Qed.
Lemma apart01 a b : inr 0 1 a -> inr 0 1 b -> fge (distance a b) tolerance = true -> (R a <> R b)%R.
Proof.
  intros [Oa Ba] [Ob Bb] D E.
  destruct (sub_d a b Oa Ob) as [Os Es]; [unfold mid; lra|]. rewrite E, Rminus_diag_eq in Es by reflexivity. rewrite (rnd64_Z 0) in Es by lia.
  unfold distance in D. destruct (R_zero _ Os Es) as [sg Z]. rewrite Z, zero_tol in D. discriminate D.
Qed.
Lemma rnd64_opp x : rnd64 (- x) = (- rnd64 x)%R.
Proof. apply Round_NE.round_NE_opp. Qed.
Lemma okd_inj a b : okd a -> okd b -> R a = R b -> R a <> 0%R -> a = b.
Proof.
  intros [Va Fa] [Vb Fb] E N. rewrite <- (lift_sf 53 1024 _ Va), <- (lift_sf 53 1024 _ Vb). f_equal.
  apply Flocq.IEEE754.BinarySingleNaN.B2R_inj; [| |rewrite !lift_R; exact E]; [rewrite <- (lift_R 53 1024 _ Va) in N|rewrite E, <- (lift_R 53 1024 _ Vb) in N].
  - destruct (lift 53 1024 a Va) eqn:L; try reflexivity; cbn in N; try congruence.
  - destruct (lift 53 1024 b Vb) eqn:L; try reflexivity; cbn in N; try congruence.
Qed.
Lemma distance_sym a b : inr 0 1 a -> inr 0 1 b -> distance b a = distance a b.
Proof.
  intros [Oa Ba] [Ob Bb]. unfold distance. destruct (sub_d a b Oa Ob) as [O1 E1]; [unfold mid; lra|]. destruct (sub_d b a Ob Oa) as [O2 E2]; [unfold mid; lra|].
  replace (R b - R a)%R with (- (R a - R b))%R in E2 by lra. rewrite rnd64_opp, <- E1 in E2. revert O1 O2 E2. generalize (dsub b a) (dsub a b). intros y x O1 O2 E.
  destruct (Req_dec (R x) 0) as [Z|NZ].
  - assert (ZY : R y = 0%R) by lra. destruct (R_zero _ O1 Z) as [sg ->], (R_zero _ O2 ZY) as [sg' ->]. reflexivity.
  - assert (OX : okd (SFopp x)) by (destruct O1 as [V F], x; try discriminate F; split; try reflexivity; exact V).
    assert (EX : R (SFopp x) = (- R x)%R). { destruct x as [sg|sg| |sg m e]; try (destruct O1; discriminate); [change (0 = - 0)%R; lra|]. cbn [SFopp]. unfold R. cbn [BinarySingleNaN.SF2R]. rewrite <- Float_prop.F2R_Zopp. destruct sg; reflexivity. }
    assert (y = SFopp x) by (apply okd_inj; [exact O2|exact OX|congruence|lra]). subst y. destruct x; reflexivity.
Qed.
Lemma far_near a b : inr 0 1 a -> inr 0 1 b -> flt (distance a b) tolerance = negb (fge (distance a b) tolerance).
Proof.
  intros [Oa Ba] [Ob Bb]. destruct (sub_d a b Oa Ob) as [Os Es]; [unfold mid; lra|]. assert (OA : okd (distance a b)).
  { unfold distance. destruct Os as [V F]. destruct (dsub a b) as [sg|sg| |sg m e]; try discriminate F; [split; reflexivity|]. split; [exact V|reflexivity]. }
  assert (OT : okd tolerance) by (vm_compute; split; reflexivity). unfold fge, fle. destruct (SFleb tolerance (distance a b)) eqn:L; cbn [negb]; change (SFleb tolerance (distance a b)) with (fle tolerance (distance a b)) in L.
  - apply (fle_d _ _ OT OA) in L. apply (flt_dF _ _ OA OT). exact L.
  - apply (flt_d _ _ OA OT). apply Rnot_le_lt. intros LE. apply (fle_d _ _ OT OA) in LE. congruence.
Qed.
Lemma cfg_eq_lt a b : inr 0 1 (n_drop a) -> inr 0 1 (n_drop b) -> (cfg_eq a b = true <-> cfg_lt a b = false /\ cfg_lt b a = false).
Proof.
  intros A B. unfold cfg_eq, cfg_lt. rewrite (far_near _ _ A B).
  assert (SY : fge (distance (n_drop b) (n_drop a)) tolerance = fge (distance (n_drop a) (n_drop b)) tolerance).
  { enough (E : distance (n_drop b) (n_drop a) = distance (n_drop a) (n_drop b)) by (rewrite E; reflexivity). apply distance_sym; assumption. }
  rewrite SY. destruct (list_eqb (n_sizes a) (n_sizes b)) eqn:ES.
  - apply list_eqb_iff in ES. rewrite ES, list_eqb_refl. cbn [negb andb]. destruct (fge (distance (n_drop a) (n_drop b)) tolerance) eqn:F; cbn [negb andb].
    + split; [discriminate|]. intros [L1 L2]. exfalso. apply (apart01 _ _ A B F). apply (flt_dF _ _ (proj1 A) (proj1 B)) in L1. apply (flt_dF _ _ (proj1 B) (proj1 A)) in L2. lra.
    + clear A B SY F. destruct (n_resid a), (n_resid b); cbn [Bool.eqb negb andb]; rewrite ?N.eqb_eq, ?N.ltb_ge; split; intros H; try discriminate; try (destruct H; discriminate); lia.
  - cbn [andb negb]. split; [discriminate|]. intros [L1 L2]. exfalso. destruct (list_ltb_total (n_sizes a) (n_sizes b)) as [H|H]; [intros E; rewrite E, list_eqb_refl in ES; discriminate ES|congruence|].
    destruct (list_eqb (n_sizes b) (n_sizes a)) eqn:ES'; cbn [negb] in L2; [|congruence]. apply list_eqb_iff in ES'. rewrite ES', list_eqb_refl in ES. discriminate ES.
Qed.
Section Drops.
Variable ds : list sf.
Hypothesis SEP : separated ds.
Lemma drop_ok a : In a ds -> inr 0 1 a.
Proof. intros H. destruct SEP as [F _]. rewrite Forall_forall in F. exact (F a H). Qed.
Lemma tol_pos : okd tolerance /\ (0 < R tolerance)%R.
Proof. assert (O : okd tolerance) by (vm_compute; split; reflexivity). split; [exact O|]. destruct d0 as [O0 E0]. rewrite <- E0. apply (flt_d _ _ O0 O). vm_compute. reflexivity. Qed.
Lemma distance_self a : In a ds -> fge (distance a a) tolerance = false.
Proof. intros H. apply distance_self01, drop_ok, H. Qed.
Lemma apart a b : In a ds -> In b ds -> fge (distance a b) tolerance = true -> (R a <> R b)%R.
Proof. intros A B. apply apart01; apply drop_ok; assumption. Qed.
Lemma near_iff a b : In a ds -> In b ds -> (fge (distance a b) tolerance = false <-> a = b).
Proof.
  intros Ha Hb. split.
  - intros F. destruct SEP as [_ S]. destruct (S a b Ha Hb) as [E|E]; [exact E|congruence].
  - intros <-. apply distance_self. exact Ha.
Qed.

(** ** the order of configurations *)
Definition indom (c : ncfg) : Prop := In (n_drop c) ds.
Lemma cfg_lt_irrefl a : indom a -> cfg_lt a a = false.
Proof. intros D. unfold cfg_lt. rewrite list_eqb_refl, (distance_self _ D), Bool.eqb_reflx. cbn [negb]. apply N.ltb_irrefl. Qed.
(** the order, unfolded *)
Lemma cfg_lt_iff a b : indom a -> indom b -> (cfg_lt a b = true <->
  (list_ltb (n_sizes a) (n_sizes b) = true) \/ (n_sizes a = n_sizes b /\ ((R (n_drop a) < R (n_drop b))%R \/ (n_drop a = n_drop b /\
    ((n_resid a = false /\ n_resid b = true) \/ (n_resid a = n_resid b /\ level_index (n_prot a) < level_index (n_prot b))))))).
Proof.
  intros Da Db. unfold cfg_lt. destruct (list_eqb (n_sizes a) (n_sizes b)) eqn:ES; cbn [negb].
  - apply list_eqb_iff in ES. rewrite ES, list_ltb_irrefl. destruct (fge (distance (n_drop a) (n_drop b)) tolerance) eqn:ED.
    + destruct (drop_ok _ Da) as [Oa _], (drop_ok _ Db) as [Ob _]. rewrite (flt_d _ _ Oa Ob). pose proof (apart _ _ Da Db ED) as NE. split; [intros L; right; split; [reflexivity|left; exact L]|].
      intros [F|[_ [L|[E _]]]]; [discriminate F|exact L|]. rewrite E in NE. contradiction.
    + apply near_iff in ED; try assumption. rewrite ED. destruct (n_resid a), (n_resid b); cbn [Bool.eqb negb andb]; rewrite ?N.ltb_lt; split; intros H.
      all: try discriminate H; try (right; split; [reflexivity|right; split; [reflexivity|tauto]]); try reflexivity.
      all: destruct H as [F|[_ [L|[_ [[A B]|[A B]]]]]]; try discriminate; try assumption; try lra.
  - split; [tauto|]. intros [H|[E _]]; [exact H|]. rewrite E, list_eqb_refl in ES. discriminate ES.
Qed.
Lemma cfg_lt_trans a b c : indom a -> indom b -> indom c -> cfg_lt a b = true -> cfg_lt b c = true -> cfg_lt a c = true.
Proof.
  intros Da Db Dc. rewrite !cfg_lt_iff by assumption. intros [A|[EA A]] [B|[EB B]].
  - left. exact (list_ltb_trans _ _ _ A B).
  - left. rewrite <- EB. exact A.
  - left. rewrite EA. exact B.
  - right. split; [congruence|]. destruct A as [A|[FA A]], B as [B|[FB B]].
    + left. lra.
    + left. rewrite <- FB. exact A.
    + left. rewrite FA. exact B.
    + right. split; [congruence|]. destruct A as [[A1 A2]|[A1 A2]], B as [[B1 B2]|[B1 B2]]; try congruence; [left|left|right]; split; try congruence. lia.
Qed.
Lemma cfg_lt_total a b : indom a -> indom b -> cfg_lt a b = false -> cfg_lt b a = false -> a = b.
Proof.
  intros Da Db L1 L2. assert (N1 : cfg_lt a b <> true) by congruence. assert (N2 : cfg_lt b a <> true) by congruence. rewrite cfg_lt_iff in N1, N2 by assumption.
  assert (ES : n_sizes a = n_sizes b).
  { destruct (list_eqb (n_sizes a) (n_sizes b)) eqn:E; [apply list_eqb_iff; exact E|]. destruct (list_ltb_total (n_sizes a) (n_sizes b)) as [H|H]; [intros H; rewrite H, list_eqb_refl in E; discriminate E|tauto|tauto]. }
  assert (ED : n_drop a = n_drop b).
  { destruct SEP as [_ S]. destruct (S _ _ Da Db) as [E|E]; [exact E|]. pose proof (apart _ _ Da Db E) as NE. destruct (Rtotal_order (R (n_drop a)) (R (n_drop b))) as [H|[H|H]]; [|contradiction|]; exfalso; [apply N1|apply N2]; right; (split; [congruence|left; lra]). }
  assert (ER : n_resid a = n_resid b).
  { destruct (n_resid a) eqn:A, (n_resid b) eqn:B; try reflexivity; exfalso; [apply N2|apply N1]; right; (split; [congruence|right; split; [congruence|left; split; congruence]]). }
  assert (EP : n_prot a = n_prot b).
  { apply level_index_inj. destruct (N.lt_trichotomy (level_index (n_prot a)) (level_index (n_prot b))) as [H|[H|H]]; [|exact H|]; exfalso; [apply N1|apply N2]; right; (split; [congruence|right; split; [congruence|right; split; [congruence|exact H]]]). }
  destruct a as [a1 a2 a3 a4], b as [b1 b2 b3 b4]. cbn in *. congruence.
Qed.
Lemma cfg_lt_asym a b : indom a -> indom b -> cfg_lt a b = true -> cfg_lt b a = false.
Proof. intros Da Db H. destruct (cfg_lt b a) eqn:E; [|reflexivity]. pose proof (cfg_lt_trans a b a Da Db Da H E) as T. rewrite cfg_lt_irrefl in T by assumption. discriminate T. Qed.

(** ** the map *)
Notation lt_entry := (fun x y : ncfg * res => cfg_lt (fst x) (fst y) = true).
Definition sound (m : cmap) : Prop := StronglySorted lt_entry m /\ forall c r, In (c, r) m -> indom c.
Lemma sound_nil : sound []. Proof. split; [constructor|intros c r []]. Qed.
Lemma sound_tail x m : sound (x :: m) -> sound m.
Proof. intros [S D]. apply StronglySorted_inv in S. split; [apply S|]. intros c r H. apply (D c r). right. exact H. Qed.
Lemma sound_head k v m : sound ((k, v) :: m) -> indom k /\ forall c r, In (c, r) m -> cfg_lt k c = true.
Proof. intros [S D]. split; [apply (D k v); left; reflexivity|]. apply StronglySorted_inv in S. destruct S as [_ S]. rewrite Forall_forall in S. intros c r H. exact (S (c, r) H). Qed.
Lemma map_find_iff m c r : sound m -> indom c -> (map_find c m = Some r <-> In (c, r) m).
Proof.
  intros S D. induction m as [|[k v] m IH]; cbn [map_find]; [split; [discriminate|intros []]|].
  specialize (IH (sound_tail _ _ S)). destruct (sound_head _ _ _ S) as [Dk Hk].
  destruct (cfg_lt k c) eqn:K.
  - rewrite IH. split; [intros H; right; exact H|]. intros [E|H]; [|exact H]. injection E as -> ->. rewrite cfg_lt_irrefl in K by assumption. discriminate K.
  - destruct (cfg_lt c k) eqn:C.
    + split; [discriminate|]. intros [E|H]; [injection E as -> ->; rewrite cfg_lt_irrefl in C by assumption; discriminate C|]. rewrite (Hk _ _ H) in K. discriminate K.
    + pose proof (cfg_lt_total k c Dk D K C) as ->. split; [intros E; injection E as ->; left; reflexivity|]. intros [E|H]; [injection E as ->; reflexivity|]. rewrite (Hk _ _ H) in K. discriminate K.
Qed.
Lemma map_find_none m c : sound m -> indom c -> (map_find c m = None <-> ~ In c (map fst m)).
Proof.
  intros S D. split.
  - intros F H. apply in_map_iff in H. destruct H as ([k v] & E & H). cbn in E. subst k. apply (map_find_iff m c v S D) in H. congruence.
  - intros H. destruct (map_find c m) as [r|] eqn:F; [|reflexivity]. exfalso. apply H. apply (map_find_iff m c r S D) in F. exact (in_map fst _ _ F).
Qed.
Lemma map_set_in m c r : sound m -> indom c -> forall k v, In (k, v) (map_set c r m) <-> (k = c /\ v = r) \/ (k <> c /\ In (k, v) m).
Proof.
  intros S D. induction m as [|[k0 v0] m IH]; intros k v; cbn [map_set].
  - split; [intros [E|[]]; injection E as <- <-; left; split; reflexivity|]. intros [[-> ->]|[_ []]]. left. reflexivity.
  - specialize (IH (sound_tail _ _ S) k v). destruct (sound_head _ _ _ S) as [Dk Hk].
    destruct (cfg_lt k0 c) eqn:K.
    + cbn [In]. rewrite IH. split.
      * intros [E|[H|[N H]]]; [|tauto|tauto]. injection E as -> ->. right. split; [intros ->; rewrite cfg_lt_irrefl in K by assumption; discriminate K|left; reflexivity].
      * intros [H|[N [E|H]]]; [tauto|left; exact E|tauto].
    + destruct (cfg_lt c k0) eqn:C.
      * cbn [In]. split.
        -- intros [E|[E|H]].
           ++ injection E as <- <-. left. split; reflexivity.
           ++ injection E as <- <-. right. split; [intros ->; rewrite cfg_lt_irrefl in C by assumption; discriminate C|left; reflexivity].
           ++ right. split; [intros ->; rewrite (Hk _ _ H) in K; discriminate K|right; exact H].
        -- intros [[-> ->]|[N [E|H]]]; [left; reflexivity|right; left; exact E|right; right; exact H].
      * pose proof (cfg_lt_total k0 c Dk D K C) as ->. cbn [In]. split.
        -- intros [E|H]; [injection E as <- <-; left; split; reflexivity|]. right. split; [intros ->; rewrite (Hk _ _ H) in K; discriminate K|right; exact H].
        -- intros [[-> ->]|[N [E|H]]]; [left; reflexivity|injection E as <- _; contradiction|right; exact H].
Qed.
Lemma map_set_sound m c r : sound m -> indom c -> sound (map_set c r m).
Proof.
  intros S D. split.
  - induction m as [|[k v] m IH]; cbn [map_set]; [constructor; constructor|].
    pose proof (sound_tail _ _ S) as S'. specialize (IH S'). destruct (sound_head _ _ _ S) as [Dk Hk].
    assert (FA : Forall (lt_entry (k, v)) m) by (apply Forall_forall; intros [k1 v1] H; exact (Hk _ _ H)).
    destruct (cfg_lt k c) eqn:K.
    + constructor; [exact IH|]. apply Forall_forall. intros [k1 v1] H. apply (map_set_in m c r S' D) in H. destruct H as [[-> _]|[_ H]]; [exact K|exact (Hk _ _ H)].
    + destruct (cfg_lt c k) eqn:C.
      * constructor; [exact (proj1 S)|]. constructor; [exact C|]. apply Forall_forall. intros [k1 v1] H. cbn [fst]. apply (cfg_lt_trans c k k1 D Dk (proj2 S' _ _ H) C (Hk _ _ H)).
      * pose proof (cfg_lt_total k c Dk D K C) as ->. constructor; [exact (proj1 S')|exact FA].
  - intros k v H. apply (map_set_in m c r S D) in H. destruct H as [[-> _]|[_ H]]; [exact D|exact (proj2 S _ _ H)].
Qed.
Lemma sound_nodup m : sound m -> NoDup (map fst m).
Proof.
  induction m as [|[k v] m IH]; intros S; cbn [map]; [constructor|]. constructor; [|exact (IH (sound_tail _ _ S))].
  destruct (sound_head _ _ _ S) as [Dk Hk]. intros H. apply in_map_iff in H. destruct H as ([k1 v1] & E & H). cbn [fst] in E. subst k1. pose proof (Hk _ _ H) as L. rewrite cfg_lt_irrefl in L by assumption. discriminate L.
Qed.
Lemma map_set_keys m c r : sound m -> indom c -> forall k, In k (map fst (map_set c r m)) <-> k = c \/ In k (map fst m).
Proof.
  intros S D k. rewrite !in_map_iff. split.
  - intros ([k1 v1] & E & H). cbn [fst] in E. subst k1. apply (map_set_in m c r S D) in H. destruct H as [[-> _]|[_ H]]; [left; reflexivity|right; exists (k, v1); split; [reflexivity|exact H]].
  - intros [->|([k1 v1] & E & H)]; [exists (c, r); split; [reflexivity|apply (map_set_in m c r S D); left; split; reflexivity]|]. cbn [fst] in E. subst k1.
    destruct (cfg_lt k c) eqn:A; [|destruct (cfg_lt c k) eqn:B].
    + exists (k, v1). split; [reflexivity|]. apply (map_set_in m c r S D). right. split; [intros ->; rewrite cfg_lt_irrefl in A by assumption; discriminate A|exact H].
    + exists (k, v1). split; [reflexivity|]. apply (map_set_in m c r S D). right. split; [intros ->; rewrite cfg_lt_irrefl in B by assumption; discriminate B|exact H].
    + pose proof (cfg_lt_total k c (proj2 S _ _ H) D A B) as ->. exists (c, r). split; [reflexivity|apply (map_set_in m c r S D); left; split; reflexivity].
Qed.
Lemma map_set_length_new m c r : map_find c m = None -> sound m -> indom c -> length (map_set c r m) = S (length m).
Proof.
  intros F S D. induction m as [|[k v] m IH]; cbn [map_set length]; [reflexivity|]. cbn [map_find] in F. destruct (cfg_lt k c) eqn:K.
  - cbn [length]. rewrite (IH F (sound_tail _ _ S)). reflexivity.
  - destruct (cfg_lt c k); [reflexivity|discriminate F].
Qed.
End Drops.
