(** Proofs about SystematicFaultInjector. *)
From Coq Require Import List NArith ZArith Bool Arith Lia FinFun.
Import ListNotations.
From Verif Require Import Outcome Words Floats Edac_Model Edac_Spec Edac_Proofs Inject_Model Inject_Spec.
Local Open Scope Z_scope.

Lemma upto_in n j : In j (upto n) <-> 0 <= j < n.
Proof.
  unfold upto. rewrite in_map_iff. split.
  - intros (k & <- & H). apply in_seq in H. lia.
  - intros H. exists (Z.to_nat j). split; [lia|]. apply in_seq. lia.
Qed.
Lemma upto_nodup n : NoDup (upto n).
Proof. unfold upto. apply Injective_map_NoDup; [intros a b; lia|apply seq_NoDup]. Qed.
Lemma nodup_app {A} (a b : list A) : NoDup a -> NoDup b -> (forall x, In x a -> ~ In x b) -> NoDup (a ++ b).
Proof.
  induction a as [|x a IHa]; intros Ha Hb D; [exact Hb|]. inversion Ha; subst. simpl. constructor.
  - rewrite in_app_iff. intros [E|E]; [contradiction|]. exact (D x (or_introl eq_refl) E).
  - apply IHa; auto. intros y Hy. apply D. right. exact Hy.
Qed.
Lemma nodup_map_on {A B} (f : A -> B) l : NoDup l -> (forall x y, In x l -> In y l -> f x = f y -> x = y) -> NoDup (map f l).
Proof.
  induction 1 as [|x l Hx Hl IH]; intros H; [constructor|]. simpl. constructor.
  - rewrite in_map_iff. intros (y & E & Hy). apply Hx. rewrite (H x y); [exact Hy|left; reflexivity|right; exact Hy|auto].
  - apply IH. intros a b Ha Hb. apply H; right; assumption.
Qed.
Lemma row_spec s n total : 0 <= s -> 0 < n -> NoDup (row s n total) /\ forall j, In j (row s n total) <-> 0 <= j < total /\ j / n = s / n.
Proof.
  intros Hs Hn. unfold row. rewrite Z.quot_div_nonneg by lia. split.
  - apply NoDup_filter. apply Injective_map_NoDup; [intros a b; lia|apply upto_nodup].
  - intros j. pose proof (Z.div_pos s n Hs Hn) as P. rewrite filter_In, in_map_iff, Z.ltb_lt. split.
    + intros [(i & <- & Hi) Hj]. apply upto_in in Hi. split; [nia|]. rewrite Z.add_comm, Z.div_add by lia. rewrite Z.div_small by lia. lia.
    + intros [Hj E]. split; [|lia]. exists (j mod n). rewrite upto_in. pose proof (Z.mod_pos_bound j n Hn). split; [|lia].
      rewrite <- E. pose proof (Z.div_mod j n ltac:(lia)). lia.
Qed.
Lemma column_spec s total : 0 <= s -> 0 < total -> NoDup (column s total) /\
  forall j, In j (column s total) <-> 0 <= j < total /\ j mod 8 = s mod 8 /\ j / 8 <> s / 8.
Proof.
  intros Hs Ht. unfold column. rewrite !Z.quot_div_nonneg, Z.rem_mod_nonneg by lia. split.
  - apply Injective_map_NoDup; [intros a b; lia|]. apply NoDup_filter. apply Injective_map_NoDup; [intros a b; lia|apply upto_nodup].
  - intros j. pose proof (Z.mod_pos_bound s 8 ltac:(lia)) as M. rewrite in_map_iff. split.
    + intros (i & <- & Hi). rewrite filter_In, in_map_iff in Hi. destruct Hi as [(k & <- & Hk) Hi]. apply upto_in in Hk.
      apply andb_true_iff in Hi as [Hi1 Hi2]. apply negb_true_iff in Hi1. apply Z.eqb_neq in Hi1. apply Z.ltb_lt in Hi2.
      split; [lia|]. rewrite (Z.add_comm (8 * k)), (Z.mul_comm 8). rewrite Z.mod_add, Z.div_add by lia. rewrite Z.mod_mod by lia.
      split; [reflexivity|]. rewrite (Z.div_small (s mod 8)) by lia. lia.
    + intros (Hj & Em & Ed). exists (8 * (j / 8)). pose proof (Z.div_mod j 8 ltac:(lia)) as D. split; [lia|].
      apply filter_In. split.
      * apply in_map_iff. exists (j / 8). split; [reflexivity|]. apply upto_in. split; [apply Z.div_pos; lia|].
        apply Z.div_lt_upper_bound; [lia|]. pose proof (Z.div_mod (total + 7) 8 ltac:(lia)). pose proof (Z.mod_pos_bound (total + 7) 8 ltac:(lia)). lia.
      * apply andb_true_iff. split; [apply negb_true_iff; apply Z.eqb_neq; lia|apply Z.ltb_lt; lia].
Qed.
Lemma adj_spec s n w : 0 <= s < w -> 0 < n <= w -> NoDup (map (fun i => Z.rem (s + i) w) (upto n)) /\
  forall j, In j (map (fun i => Z.rem (s + i) w) (upto n)) <-> 0 <= j < w /\ (j - s) mod w < n.
Proof.
  intros Hs Hn.
  assert (Q : forall i, 0 <= i < n -> exists c, Z.rem (s + i) w = s + i - c * w /\ 0 <= Z.rem (s + i) w < w).
  { intros i Hi. rewrite Z.rem_mod_nonneg by lia. exists ((s + i) / w). pose proof (Z.div_mod (s + i) w ltac:(lia)). pose proof (Z.mod_pos_bound (s + i) w ltac:(lia)). lia. }
  split.
  - apply nodup_map_on; [apply upto_nodup|]. intros x y Hx Hy E. apply upto_in in Hx, Hy.
    destruct (Q x Hx) as (a & A & _). destruct (Q y Hy) as (b & B & _). rewrite A, B in E. assert (K : x - y = (a - b) * w) by (rewrite Z.mul_sub_distr_r; lia). destruct (Z.lt_trichotomy (a - b) 0) as [T|[T|T]]; [exfalso; nia|rewrite T in K; lia|exfalso; nia].
  - intros j. rewrite in_map_iff. split.
    + intros (i & <- & Hi). apply upto_in in Hi. destruct (Q i Hi) as (c & C & R). split; [exact R|]. rewrite C.
      replace (s + i - c * w - s) with (i + (- c) * w) by lia. rewrite Z.mod_add by lia. rewrite Z.mod_small by lia. lia.
    + intros [Hj Hm]. exists ((j - s) mod w). pose proof (Z.mod_pos_bound (j - s) w ltac:(lia)) as M. split; [|apply upto_in; lia].
      rewrite Z.rem_mod_nonneg by lia. rewrite Zplus_mod_idemp_r. replace (s + (j - s)) with j by lia. apply Z.mod_small. lia.
Qed.
Definition aim (w start : Z) (d : fi_draw) := target w start (fstart d).
Lemma clamp w start d : 0 < w -> legal_fi w d -> Z.max (Z.min (if start <? 0 then fstart d else start) (w - 1)) 0 = aim w start d /\ 0 <= aim w start d < w.
Proof. intros Hw (H & _). unfold aim, target. destruct (Z.ltb_spec start 0); lia. Qed.
Theorem bits_spec p w start d : p <> BURST_ERROR -> 8 <= w -> legal_fi w d ->
  exists l, get_bits_to_flip p w start d = Ret l /\ NoDup l /\ forall j, In j l <-> 0 <= j < w /\ affected p w (aim w start d) (fadj d) j = true.
Proof.
  intros Hp Hw Hl. destruct (clamp w start d ltac:(lia) Hl) as [E A]. destruct Hl as (_ & Ha & _).
  unfold get_bits_to_flip. replace (w <=? 0) with false by (symmetry; apply Z.leb_gt; lia). cbv beta zeta. rewrite E. set (s := aim w start d) in *.
  eexists. split; [reflexivity|].
  assert (One : NoDup [s] /\ forall j, In j [s] <-> 0 <= j < w /\ (j =? s) = true).
  { split; [constructor; [intros []|constructor]|]. intros j. rewrite Z.eqb_eq. simpl. intuition lia. }
  destruct p; cbn [affected].
  - exact One.
  - destruct (adj_spec s (fadj d) w A ltac:(lia)) as [N I]. split; [exact N|]. intros j. rewrite I, Z.ltb_lt. reflexivity.
  - destruct (row_spec s 8 w ltac:(lia) ltac:(lia)) as [N I]. split; [exact N|]. intros j. rewrite Z.eqb_eq. apply I.
  - destruct (row_spec s 32 w ltac:(lia) ltac:(lia)) as [N I]. split; [exact N|]. intros j. rewrite Z.eqb_eq. apply I.
  - exact One.
  - exact One.
  - destruct (row_spec s 8 w ltac:(lia) ltac:(lia)) as [N I]. destruct (column_spec s w ltac:(lia) ltac:(lia)) as [N2 I2].
    split.
    + apply nodup_app; [exact N|exact N2|]. intros x Hx Hy. apply I in Hx. apply I2 in Hy. lia.
    + intros j. rewrite in_app_iff, I, I2, orb_true_iff, !Z.eqb_eq. destruct (Z.eq_dec (j / 8) (s / 8)); intuition.
  - contradiction.
Qed.
Theorem burst_spec w start d : 8 <= w -> legal_fi w d ->
  exists l, get_bits_to_flip BURST_ERROR w start d = Ret l /\ (5 <= length l <= 14)%nat /\ forall j, In j l -> 0 <= j < w.
Proof.
  intros Hw (_ & _ & Hb & Hn). unfold get_bits_to_flip. replace (w <=? 0) with false by (symmetry; apply Z.leb_gt; lia). cbv zeta.
  eexists. split; [reflexivity|]. rewrite Z.rem_mod_nonneg by lia. pose proof (Z.mod_pos_bound (fburst d) 10 ltac:(lia)). split.
  - rewrite map_length, firstn_length. lia.
  - intros j Hj. apply in_map_iff in Hj as (x & <- & _). pose proof (Z.rem_bound_abs x w ltac:(lia)).
    destruct (Z.ltb_spec (Z.rem x w) 0); lia.
Qed.

(** ** the values *)
Definition parity (l : list Z) (j : Z) : bool := Nat.odd (count_occ Z.eq_dec l j).
Lemma flip_fold p w l : flips p = true \/ p = BURST_ERROR -> (forall j, In j l -> 0 <= j < w) -> forall v j, 0 <= j ->
  bit (fold_left (apply_bit p w) l v) j = xorb (bit v j) (parity l j).
Proof.
  intros Hp. induction l as [|b l IH]; intros Hl v j Hj.
  - unfold parity. simpl. now rewrite xorb_false_r.
  - cbn [fold_left]. rewrite IH by (try (intros; apply Hl; right; assumption); assumption).
    assert (E : apply_bit p w v b = N.lxor v (N.shiftl 1 (Z.to_N b))).
    { unfold apply_bit. specialize (Hl b (or_introl eq_refl)). replace ((0 <=? b) && (b <? w)) with true by (symmetry; apply andb_true_iff; split; [apply Z.leb_le|apply Z.ltb_lt]; lia).
      destruct Hp as [Hp| ->]; [destruct p; try discriminate Hp; reflexivity|reflexivity]. }
    rewrite E. unfold bit at 1. rewrite N.lxor_spec, shift1_bit. fold (bit v j). rewrite xorb_assoc. f_equal.
    unfold parity. cbn [count_occ]. specialize (Hl b (or_introl eq_refl)). destruct (Z.eq_dec b j) as [->|D].
    + rewrite N.eqb_refl, Nat.odd_succ, <- Nat.negb_odd. destruct (Nat.odd _); reflexivity.
    + replace (Z.to_N j =? Z.to_N b)%N with false by (symmetry; apply N.eqb_neq; lia). apply xorb_false_l.
Qed.
Lemma parity_nodup l j : NoDup l -> parity l j = if in_dec Z.eq_dec j l then true else false.
Proof.
  intros H. unfold parity. destruct (in_dec Z.eq_dec j l) as [I|I].
  - apply (NoDup_count_occ' Z.eq_dec) in I; [|exact H]. rewrite I. reflexivity.
  - apply (count_occ_not_In Z.eq_dec) in I. rewrite I. reflexivity.
Qed.
Lemma apply_bit_lt p w l : forall v, 0 <= w -> (v < 2 ^ Z.to_N w)%N -> (fold_left (apply_bit p w) l v < 2 ^ Z.to_N w)%N.
Proof.
  induction l as [|b l IH]; intros v Hw Hv; [exact Hv|]. cbn [fold_left]. apply IH; [exact Hw|]. unfold apply_bit.
  destruct ((0 <=? b) && (b <? w)) eqn:E; [|exact Hv]. apply andb_true_iff in E as [E1 E2]. apply Z.leb_le in E1. apply Z.ltb_lt in E2.
  apply below_of_bits. intros i Hi. pose proof (testbit_above _ _ _ Hv Hi) as V.
  assert (X : (N.testbit (N.lxor v (N.shiftl 1 (Z.to_N b))) i = false)%N) by (rewrite N.lxor_spec, V, shift1_bit; replace (i =? Z.to_N b)%N with false by (symmetry; apply N.eqb_neq; lia); reflexivity).
  destruct p; try exact X.
  - rewrite N.clearbit_eqb, V. reflexivity.
  - rewrite N.setbit_eqb, V. replace (Z.to_N b =? i)%N with false by (symmetry; apply N.eqb_neq; lia). reflexivity.
Qed.
Definition aim2 (w pos dpos : Z) (d : fi_draw) := target w pos dpos.
Lemma aim_fold w pos dpos d : 0 < w -> (pos < 0 -> 0 <= dpos < w) -> aim w (if pos <? 0 then dpos else pos) d = target w pos dpos.
Proof. intros Hw H. unfold aim, target. destruct (Z.ltb_spec pos 0) as [L|L]; [destruct (Z.ltb_spec dpos 0); lia|]. destruct (Z.ltb_spec pos 0); lia. Qed.
Lemma mod64 w : w mod 64 = 0 -> (w mod 64 =? 0) = true.
Proof. intros ->. reflexivity. Qed.
Theorem inject_flip p w v pos dpos d : flips p = true -> 0 < w -> w mod 64 = 0 -> (v < 2 ^ Z.to_N w)%N -> (pos < 0 -> 0 <= dpos < w) -> legal_fi w d ->
  exists v', inject_fault p w v pos dpos d = Ret v' /\ (v' < 2 ^ Z.to_N w)%N /\
    forall j, 0 <= j < w -> bit v' j = xorb (bit v j) (affected p w (target w pos dpos) (fadj d) j).
Proof.
  intros Hp Hw H64 Hv Hpos Hl. assert (8 <= w) by (pose proof (Z.div_mod w 64 ltac:(lia)); lia).
  destruct (bits_spec p w (if pos <? 0 then dpos else pos) d ltac:(intros ->; discriminate) H Hl) as (l & E & N & I).
  unfold inject_fault. rewrite mod64, E by exact H64. cbn [negb]. eexists. split; [reflexivity|]. split; [apply apply_bit_lt; [lia|exact Hv]|].
  intros j Hj. rewrite flip_fold; [|left; exact Hp|intros k Hk; apply I in Hk; tauto|lia]. f_equal. rewrite parity_nodup by exact N.
  rewrite aim_fold in I by assumption.
  destruct (in_dec Z.eq_dec j l) as [K|K].
  - apply I in K. symmetry. apply K.
  - destruct (affected p w (target w pos dpos) (fadj d) j) eqn:Ea; [|reflexivity]. exfalso. apply K. apply I. split; assumption.
Qed.
Theorem inject_stuck (b : bool) w v pos dpos d : 0 < w -> w mod 64 = 0 -> (v < 2 ^ Z.to_N w)%N -> (pos < 0 -> 0 <= dpos < w) -> legal_fi w d ->
  exists v', inject_fault (if b then STUCK_AT_ONE else STUCK_AT_ZERO) w v pos dpos d = Ret v' /\ (v' < 2 ^ Z.to_N w)%N /\
    forall j, 0 <= j < w -> bit v' j = if j =? target w pos dpos then b else bit v j.
Proof.
  intros Hw H64 Hv Hpos Hl. assert (8 <= w) by (pose proof (Z.div_mod w 64 ltac:(lia)); lia).
  destruct (clamp w (if pos <? 0 then dpos else pos) d ltac:(lia) Hl) as [E A]. rewrite aim_fold in E, A by assumption.
  unfold inject_fault. rewrite mod64 by exact H64. cbn [negb]. unfold get_bits_to_flip.
  replace (w <=? 0) with false by (symmetry; apply Z.leb_gt; lia). cbv zeta. rewrite E. set (s := target w pos dpos) in *.
  assert (I : ((0 <=? s) && (s <? w)) = true) by (apply andb_true_iff; split; [apply Z.leb_le|apply Z.ltb_lt]; lia).
  destruct b; eexists; (split; [reflexivity|]); (split; [apply apply_bit_lt; [lia|exact Hv]|]);
  intros j Hj; cbn [fold_left]; unfold apply_bit; rewrite I; unfold bit;
    [rewrite N.setbit_eqb|rewrite N.clearbit_eqb]; rewrite N.eqb_sym; destruct (Z.eqb_spec j s) as [->|D]; rewrite ?N.eqb_refl; try reflexivity;
    try (replace (Z.to_N j =? Z.to_N s)%N with false by (symmetry; apply N.eqb_neq; lia)); cbn [negb orb]; rewrite ?andb_true_r, ?andb_false_r; reflexivity.
Qed.
Lemma bits_eq w a b : 0 <= w -> (a < 2 ^ Z.to_N w)%N -> (b < 2 ^ Z.to_N w)%N -> (forall j, 0 <= j < w -> bit a j = bit b j) -> a = b.
Proof.
  intros Hw Ha Hb H. apply (bits_ext_below (Z.to_N w)); try assumption. intros i Hi. specialize (H (Z.of_N i) ltac:(lia)).
  unfold bit in H. now rewrite N2Z.id in H.
Qed.
Theorem inject_twice p w v pos dpos d v1 v2 : flips p = true -> 0 < w -> w mod 64 = 0 -> (v < 2 ^ Z.to_N w)%N -> (pos < 0 -> 0 <= dpos < w) -> legal_fi w d ->
  inject_fault p w v pos dpos d = Ret v1 -> inject_fault p w v1 pos dpos d = Ret v2 -> v2 = v /\ v1 <> v.
Proof.
  intros Hp Hw H64 Hv Hpos Hl H1 H2.
  destruct (inject_flip p w v pos dpos d Hp Hw H64 Hv Hpos Hl) as (a & A1 & A2 & A3). rewrite H1 in A1. injection A1 as <-.
  destruct (inject_flip p w v1 pos dpos d Hp Hw H64 A2 Hpos Hl) as (b & B1 & B2 & B3). rewrite H2 in B1. injection B1 as <-. split.
  - apply (bits_eq w); try assumption; [lia|]. intros j Hj. rewrite B3, A3 by exact Hj. rewrite xorb_assoc, xorb_nilpotent. apply xorb_false_r.
  - intros E. assert (T : 0 <= target w pos dpos < w) by (unfold target; destruct (Z.ltb_spec pos 0); [auto|lia]).
    specialize (A3 _ T). rewrite E in A3.
    assert (Q : affected p w (target w pos dpos) (fadj d) (target w pos dpos) = true).
    { destruct Hl as (_ & Ha & _). destruct p; cbn [affected]; try discriminate Hp; rewrite ?Z.eqb_refl; auto.
      rewrite Z.sub_diag, Z.mod_0_l by lia. apply Z.ltb_lt. lia. }
    rewrite Q in A3. destruct (bit v (target w pos dpos)); discriminate A3.
Qed.

Theorem inject_defined p w v pos dpos d : 0 < w -> w mod 64 = 0 -> legal_fi w d -> exists v', inject_fault p w v pos dpos d = Ret v'.
Proof.
  intros Hw H64 Hl. assert (8 <= w) by (pose proof (Z.div_mod w 64 ltac:(lia)); lia).
  unfold inject_fault. rewrite mod64 by exact H64. cbn [negb]. unfold get_bits_to_flip. replace (w <=? 0) with false by (symmetry; apply Z.leb_gt; lia).
  eexists. reflexivity.
Qed.
Theorem inject_small p w v pos dpos d : w mod 64 <> 0 -> inject_fault p w v pos dpos d = UB UB_out_of_bounds.
Proof. intros H. unfold inject_fault. apply Z.eqb_neq in H. rewrite H. reflexivity. Qed.
