(** The REED_SOLOMON scheme: detection and single-byte correction. *)
From Coq Require Import List NArith ZArith Bool Lia.
Import ListNotations.
From Verif Require Import Outcome Words MBP_Model MBP_Spec MBP_Proofs MBP2_Proofs MBP3_Proofs.
Local Open Scope N_scope.
Local Arguments N.add : simpl never.
Local Arguments N.mul : simpl never.
Local Arguments N.pow : simpl never.
Local Arguments N.lxor : simpl never.
Local Arguments N.shiftl : simpl never.
Local Arguments N.shiftr : simpl never.
Local Arguments N.testbit : simpl never.
Local Arguments wrap : simpl never.

Local Opaque dl bytes chk_d chk_v.
Lemma lxor_byte_lt a b : a < 256 -> b < 256 -> N.lxor a b < 256.
Proof. intros. apply (lxor_below 8); assumption. Qed.
Lemma chk_all e2 e3 : e2 < 256 -> e3 < 256 -> chk_e4 (N.lxor (N.lxor (e1of e2 e3) e2) e3) (e1of e2 e3) e2 e3 = true.
Proof.
  intros H2 H3. pose proof all_chk as A. rewrite forallb_forall in A. specialize (A e3 (in_bytes _ H3)). cbv beta in A. rewrite forallb_forall in A. exact (A e2 (in_bytes _ H2)).
Qed.
Lemma zdiff_bytes a b : (Z.of_N a - Z.of_N b = zdiff (N.lxor a b) b)%Z.
Proof. unfold zdiff. rewrite (N.lxor_comm a b), <- N.lxor_assoc, N.lxor_nilpotent, N.lxor_0_l. reflexivity. Qed.
Lemma relxor a b : N.lxor b (N.lxor a b) = a.
Proof. rewrite (N.lxor_comm a b), <- N.lxor_assoc, N.lxor_nilpotent, N.lxor_0_l. reflexivity. Qed.
Lemma f0_zero a b c d : f0 a b c d = 0 -> a = N.lxor (N.lxor b c) d.
Proof. unfold f0. intros H. rewrite !N.lxor_assoc in H. apply N.lxor_eq in H. rewrite N.lxor_assoc. exact H. Qed.
Lemma f1_zero b c d : b < 256 -> f1 (N.lxor (N.lxor b c) d) b c d = 0 -> b = e1of c d.
Proof.
  intros Hb H. unfold e1of. rewrite <- (pre_spec b Hb) at 1. f_equal. unfold f1 in H.
  apply N.lxor_eq. rewrite <- wrap_xor. rewrite <- H. f_equal. apply N.bits_inj. intros k. rewrite !N.lxor_spec.
  destruct (N.testbit b k), (N.testbit c k), (N.testbit d k), (N.testbit (N.shiftl b 1) k), (N.testbit (N.shiftl c 2) k), (N.testbit (N.shiftl d 3) k); reflexivity.
Qed.
Lemma checks_inj u v : checks u = checks v -> on f0 u = on f0 v /\ on f1 u = on f1 v /\ on f2 u = on f2 v /\ on f3 u = on f3 v.
Proof. rewrite !checks_spec. intros H. injection H as -> -> -> ->. auto. Qed.
Lemma ifs (a b c x y : bool) : (if negb a then true else if b then true else if c then x else y) = true -> a = true -> b = true \/ x = true \/ y = true.
Proof. intros H ->. cbn [negb] in H. destruct b, c; auto. Qed.
Lemma chk_use e0 e1 e2 e3 : chk_e4 (N.lxor (N.lxor (e1of e2 e3) e2) e3) (e1of e2 e3) e2 e3 = true -> e1 = e1of e2 e3 ->
  e0 = N.lxor (N.lxor e1 e2) e3 -> f2 e0 e1 e2 e3 = 0 ->
  (e0 = 0 /\ e1 = 0 /\ e2 = 0 /\ e3 = 0) \/ chk_v e0 e1 e2 e3 = true \/ chk_d (dl e0) (dl e1) (dl e2) (dl e3) = true.
Proof.
  intros A K1 K0 Z2.
  assert (A4 : chk_e4 e0 e1 e2 e3 = true) by (rewrite <- K1, <- K0 in A; exact A). clear A.
  destruct (ifs (f2 e0 e1 e2 e3 =? 0) ((e0 =? 0) && (e1 =? 0) && (e2 =? 0) && (e3 =? 0)) ((e2 =? 0xbd) && (e3 =? 0x7e)) (chk_v e0 e1 e2 e3) (chk_d (dl e0) (dl e1) (dl e2) (dl e3)) A4 (proj2 (N.eqb_eq _ _) Z2)) as [Ez|G]; [|right; exact G].
  left. apply andb_prop in Ez. destruct Ez as [Ez Q3]. apply andb_prop in Ez. destruct Ez as [Ez Q2]. apply andb_prop in Ez. destruct Ez as [Q0 Q1].
  apply N.eqb_eq in Q0, Q1, Q2, Q3. auto.
Qed.
Lemma chk_core e0 e1 e2 e3 v0 v1 v2 v3 : e1 < 256 -> e2 < 256 -> e3 < 256 -> v0 < 256 -> v1 < 256 -> v2 < 256 -> v3 < 256 ->
  f0 e0 e1 e2 e3 = 0 -> f1 e0 e1 e2 e3 = 0 -> f2 e0 e1 e2 e3 = 0 ->
  f3 (N.lxor v0 e0) (N.lxor v1 e1) (N.lxor v2 e2) (N.lxor v3 e3) = f3 v0 v1 v2 v3 ->
  (35937 * zdiff e0 v0 + 1089 * zdiff e1 v1 + 33 * zdiff e2 v2 + zdiff e3 v3 = 0)%Z ->
  e0 = 0 /\ e1 = 0 /\ e2 = 0 /\ e3 = 0.
Proof.
  intros B1 B2 B3 V0 V1 V2 V3 Z0 Z1 Z2 Z3 H. pose proof (f0_zero _ _ _ _ Z0) as K0. rewrite K0 in Z1. pose proof (f1_zero _ _ _ B1 Z1) as K1.
  destruct (chk_use e0 e1 e2 e3 (chk_all e2 e3 B2 B3) K1 K0 Z2) as [G|[G|G]]; [exact G| |]; exfalso.
  - exact (chk_v_spec e0 e1 e2 e3 v0 v1 v2 v3 G V0 V1 V2 V3 H Z3).
  - exact (chk_d_spec (dl e0) (dl e1) (dl e2) (dl e3) (zdiff e0 v0) (zdiff e1 v1) (zdiff e2 v2) (zdiff e3 v3) G (dl_in e0 v0 V0) (dl_in e1 v1 V1) (dl_in e2 v2 V2) (dl_in e3 v3 V3) H).
Qed.
(** no two values have both the same check bytes and the same hash *)
Lemma rs_injective u v : word u -> word v -> checks u = checks v -> hash32 u = hash32 v -> u = v.
Proof.
  intros Hu Hv C H. destruct (checks_inj u v C) as (E0 & E1 & E2 & E3). apply hash_sum in H.
  pose proof (diff_zero f0 u v f0_xor E0) as Z0. pose proof (diff_zero f1 u v f1_xor E1) as Z1. pose proof (diff_zero f2 u v f2_xor E2) as Z2.
  rewrite !zdiff_bytes in H.
  destruct (chk_core _ _ _ _ (byte v 0) (byte v 1) (byte v 2) (byte v 3) (lxor_byte_lt _ _ (byte_lt u 1) (byte_lt v 1)) (lxor_byte_lt _ _ (byte_lt u 2) (byte_lt v 2)) (lxor_byte_lt _ _ (byte_lt u 3) (byte_lt v 3))
    (byte_lt v 0) (byte_lt v 1) (byte_lt v 2) (byte_lt v 3) Z0 Z1 Z2) as (Q0 & Q1 & Q2 & Q3); [rewrite !relxor; exact E3|exact H|].
  apply N.lxor_eq in Q0, Q1, Q2, Q3. apply word_bytes; [exact Hu|exact Hv|]. intros i Hi.
  assert (D : i = 0 \/ i = 1 \/ i = 2 \/ i = 3) by lia. destruct D as [->|[->|[->| ->]]]; assumption.
Qed.

Lemma hash_word v : word (hash32 v).
Proof. rewrite hash_mod. apply N.mod_lt. cbv. discriminate. Qed.
Lemma hash_bytes_spec h : hash_bytes h = [byte h 0; byte h 1; byte h 2; byte h 3].
Proof. reflexivity. Qed.
Lemma lget_bytes h i : i < 4 -> lget (hash_bytes h) i = byte h i.
Proof. intros Hi. rewrite hash_bytes_spec. assert (D : i = 0 \/ i = 1 \/ i = 2 \/ i = 3) by lia. destruct D as [->|[->|[->| ->]]]; reflexivity. Qed.
Lemma rs_ecc s v : holding s REED_SOLOMON v ->
  value_ s = v /\ coding_scheme_ s = REED_SOLOMON /\ valid_ s = true /\ length (ecc_data_ s) = 32%nat /\
  (forall i, i < 4 -> lget (ecc_data_ s) i = lget (checks v) i) /\ (forall i, i < 4 -> lget (ecc_data_ s) (4 + i) = byte (hash32 v) i).
Proof.
  intros H. pose proof (holding_length s _ _ H) as L. destruct (holding_fields s _ _ H) as (Ev & Ec & Eva & _). destruct (holding_update s _ _ H) as (e & Le & ->).
  split; [exact Ev|]. split; [exact Ec|]. split; [exact Eva|]. split; [exact L|]. unfold updateECC. cbn [coding_scheme_ generateReedSolomon ecc_data_ value_].
  rewrite checks_spec, hash_bytes_spec. split; intros i Hi; assert (D : i = 0 \/ i = 1 \/ i = 2 \/ i = 3) by lia; destruct D as [->|[->|[->| ->]]]; reflexivity.
Qed.
Lemma listeqb_spec a b l : listeqb a b l = true <-> forall i, In i l -> lget a i = lget b i.
Proof. unfold listeqb. rewrite forallb_forall. split; intros H i Hi; apply N.eqb_eq, H, Hi. Qed.
Lemma in4 i : In i [0; 1; 2; 3] <-> i < 4.
Proof. cbn [In]. split; intros H; lia. Qed.
Lemma checks_ext u v : (forall i, i < 4 -> lget (checks u) i = lget (checks v) i) -> checks u = checks v.
Proof.
  intros H. rewrite !checks_spec in *. pose proof (H 0 ltac:(lia)) as H0. pose proof (H 1 ltac:(lia)) as H1. pose proof (H 2 ltac:(lia)) as H2. pose proof (H 3 ltac:(lia)) as H3.
  change (on f0 u = on f0 v) in H0. change (on f1 u = on f1 v) in H1. change (on f2 u = on f2 v) in H2. change (on f3 u = on f3 v) in H3. congruence.
Qed.
Lemma rs_hasError s v w : holding s REED_SOLOMON v -> word v -> word w -> hasError (hit_value s w) = negb (w =? v).
Proof.
  intros H Hv Hw. destruct (rs_ecc s v H) as (_ & Ec & Eva & _ & C & Hh). unfold hasError. cbn [hit_value valid_ coding_scheme_]. rewrite Ec, Eva. cbn [negb].
  unfold checkReedSolomon. cbn [hit_value value_ ecc_data_].
  destruct (listeqb (checks w) (ecc_data_ s) [0; 1; 2; 3]) eqn:E.
  - cbn [negb]. f_equal. rewrite listeqb_spec in E. assert (K : checks w = checks v) by (apply checks_ext; intros i Hi; rewrite E by (apply in4, Hi); apply C, Hi).
    apply eq_true_iff_eq. rewrite forallb_forall, N.eqb_eq. split.
    + intros G. apply rs_injective; [exact Hw|exact Hv|exact K|]. apply word_bytes; [apply hash_word|apply hash_word|]. intros i Hi.
      specialize (G i (proj2 (in4 i) Hi)). apply N.eqb_eq in G. rewrite Hh in G by exact Hi. rewrite <- G. symmetry. apply lget_bytes, Hi.
    + intros ->. intros i Hi. apply in4 in Hi. rewrite Hh by exact Hi. apply N.eqb_eq. apply lget_bytes, Hi.
  - cbn [negb]. destruct (N.eqb_spec w v) as [->|]; [|reflexivity]. exfalso.
    assert (X : listeqb (checks v) (ecc_data_ s) [0; 1; 2; 3] = true) by (apply listeqb_spec; intros i Hi; symmetry; apply C, in4, Hi). congruence.
Qed.

(** values that differ in at most two bytes and have the same check bytes are equal *)
Definition put (x : N) (i k j : N) : N := if (j =? i) || (j =? k) then x else 0.
Lemma two_bytes_chk : forallb (fun i => forallb (fun k => forallb (fun x =>
  (i =? k) || (x =? 0) || negb (f1 (put x i k 0) (put x i k 1) (put x i k 2) (put x i k 3) =? 0) || negb (f2 (put x i k 0) (put x i k 1) (put x i k 2) (put x i k 3) =? 0)) bytes) [0;1;2;3]) [0;1;2;3] = true.
Proof. vm_compute. reflexivity. Qed.
Lemma two_bytes u v i k : word u -> word v -> i < 4 -> k < 4 -> (forall j, j <> i -> j <> k -> byte u j = byte v j) -> checks u = checks v -> u = v.
Proof.
  intros Hu Hv Hi Hk D C. destruct (checks_inj u v C) as (E0 & E1 & E2 & _).
  pose proof (diff_zero f0 u v f0_xor E0) as Z0. pose proof (diff_zero f1 u v f1_xor E1) as Z1. pose proof (diff_zero f2 u v f2_xor E2) as Z2.
  assert (F : forall j, j <> i -> j <> k -> N.lxor (byte u j) (byte v j) = 0) by (intros j A B; rewrite (D j A B); apply N.lxor_nilpotent).
  set (e := fun j => N.lxor (byte u j) (byte v j)). change (forall j, j <> i -> j <> k -> e j = 0) in F. change (f0 (e 0) (e 1) (e 2) (e 3) = 0) in Z0. change (f1 (e 0) (e 1) (e 2) (e 3) = 0) in Z1. change (f2 (e 0) (e 1) (e 2) (e 3) = 0) in Z2.
  assert (X : i <> k -> e i = e k).
  { intros Nik. unfold f0 in Z0. assert (Ci : i = 0 \/ i = 1 \/ i = 2 \/ i = 3) by lia. assert (Ck : k = 0 \/ k = 1 \/ k = 2 \/ k = 3) by lia.
    destruct Ci as [->|[->|[->| ->]]]; destruct Ck as [->|[->|[->| ->]]]; try congruence;
      repeat match type of Z0 with context [e ?j] => rewrite (F j) in Z0 by (intros Q; discriminate Q) end;
      rewrite ?N.lxor_0_l, ?N.lxor_0_r in Z0; apply N.lxor_eq in Z0; auto. }
  assert (Y : i = k -> e i = 0).
  { intros <-. unfold f0 in Z0. assert (Ci : i = 0 \/ i = 1 \/ i = 2 \/ i = 3) by lia.
    destruct Ci as [->|[->|[->| ->]]];
      repeat match type of Z0 with context [e ?j] => rewrite (F j) in Z0 by (intros Q; discriminate Q) end;
      rewrite ?N.lxor_0_l, ?N.lxor_0_r in Z0; exact Z0. }
  assert (Zi : e i = 0).
  { destruct (N.eq_dec i k) as [Eik|Nik]; [apply Y, Eik|].
    assert (P : forall j, j < 4 -> e j = put (e i) i k j).
    { intros j _. unfold put. destruct (N.eqb_spec j i) as [->|A]; [reflexivity|]. destruct (N.eqb_spec j k) as [->|B]; [symmetry; apply X, Nik|]. apply F; assumption. }
    pose proof two_bytes_chk as A. rewrite forallb_forall in A. specialize (A i (proj2 (in4 i) Hi)). cbv beta in A. rewrite forallb_forall in A. specialize (A k (proj2 (in4 k) Hk)). cbv beta in A.
    rewrite forallb_forall in A. specialize (A (e i) (in_bytes _ (lxor_byte_lt _ _ (byte_lt u i) (byte_lt v i)))). cbv beta in A.
    rewrite <- !P in A by lia. rewrite Z1, Z2 in A. change (negb (0 =? 0)) with false in A. rewrite !orb_false_r in A.
    apply orb_prop in A. destruct A as [A|A]; apply N.eqb_eq in A; [contradiction|exact A]. }
  apply word_bytes; [exact Hu|exact Hv|]. intros j Hj. apply N.lxor_eq. change (e j = 0).
  destruct (N.eq_dec j i) as [->|Ni]; [exact Zi|]. destruct (N.eq_dec j k) as [->|Nk]; [|apply F; assumption].
  rewrite <- X by congruence. exact Zi.
Qed.

Definition trials : list (N * N) := flat_map (fun i => map (fun j => (i, N.of_nat j)) (seq 0 256)) [0; 1; 2; 3].
Lemma in_trials i j : In (i, j) trials <-> i < 4 /\ j < 256.
Proof.
  unfold trials. rewrite in_flat_map. split.
  - intros (a & Ha & Hb). apply in4 in Ha. apply in_map_iff in Hb. destruct Hb as (n & En & Hn). injection En as -> <-. apply in_seq in Hn. lia.
  - intros [Hi Hj]. exists i. split; [apply in4, Hi|]. apply in_map_iff. exists (N.to_nat j). rewrite N2Nat.id. split; [reflexivity|]. apply in_seq. lia.
Qed.
Lemma crs_unfold s : correctReedSolomon s =
  match find (fun t => listeqb (checks (set_byte (value_ s) (fst t) (snd t))) (ecc_data_ s) [0; 1; 2; 3]) trials with
  | Some (i, j) => (true, mkmb (set_byte (value_ s) i j) (coding_scheme_ s) (ecc_data_ s) (valid_ s))
  | None => (false, s)
  end.
Proof. unfold correctReedSolomon, trials. reflexivity. Qed.
Global Opaque trials.
Lemma find_some_of {A} (f : A -> bool) l x : In x l -> f x = true -> exists y, find f l = Some y /\ In y l /\ f y = true.
Proof.
  intros Hx Hf. destruct (find f l) as [y|] eqn:E.
  - exists y. split; [reflexivity|]. apply find_some in E. exact E.
  - pose proof (find_none _ _ E x Hx). congruence.
Qed.
Lemma rs_correct s v w k : holding s REED_SOLOMON v -> word v -> word w -> k < 4 -> (forall j, j <> k -> byte w j = byte v j) ->
  correctReedSolomon (hit_value s w) = (true, s).
Proof.
  intros H Hv Hw Hk D. destruct (rs_ecc s v H) as (Ev & Ec & Eva & _ & C & _). rewrite crs_unfold. cbn [hit_value value_ ecc_data_ coding_scheme_ valid_].
  assert (Sv : set_byte w k (byte v k) = v).
  { apply word_bytes; [apply set_byte_word; [exact Hw|exact Hk|apply byte_lt]|exact Hv|]. intros i Hi. rewrite byte_set by apply byte_lt. destruct (N.eqb_spec i k) as [->|E]; [reflexivity|]. apply D, E. }
  destruct (find_some_of (fun t => listeqb (checks (set_byte w (fst t) (snd t))) (ecc_data_ s) [0; 1; 2; 3]) trials (k, byte v k)) as ([i j] & -> & I & G).
  - apply in_trials. split; [exact Hk|apply byte_lt].
  - cbn [fst snd]. rewrite Sv. apply listeqb_spec. intros i Hi. symmetry. apply C, in4, Hi.
  - cbn [fst snd] in G. apply in_trials in I. destruct I as [Hi Hj].
    assert (E : set_byte w i j = v).
    { apply (two_bytes _ _ i k); [apply set_byte_word; assumption|exact Hv|exact Hi|exact Hk| |].
      - intros a Ai Ak. rewrite byte_set by exact Hj. destruct (N.eqb_spec a i); [contradiction|]. apply D, Ak.
      - rewrite listeqb_spec in G. apply checks_ext. intros a Ha. rewrite G by (apply in4, Ha). apply C, Ha. }
    rewrite E. f_equal. destruct s as [sv sc se sb]. cbn [value_ coding_scheme_ ecc_data_ valid_] in *. congruence.
Qed.
Lemma differ_bytes k v w : differ_in_byte k v w -> forall j, j <> k -> byte w j = byte v j.
Proof.
  intros (_ & _ & _ & _ & H) j Hj. apply N.bits_inj. intros b. rewrite !byte_bit. destruct (N.ltb_spec b 8) as [Hb|Hb]; [|reflexivity]. cbn [andb]. symmetry. apply H.
  rewrite N.mul_comm, N.div_add_l, N.div_small by lia. lia.
Qed.
Lemma rs_single s v w k : holding s REED_SOLOMON v -> differ_in_byte k v w ->
  let s' := hit_value s w in hasError s' = true /\ correctErrors s' = (true, s) /\ getValue s' = (v, s).
Proof.
  intros H D. pose proof (differ_bytes k v w D) as Db. destruct D as (Hv & Hw & Hk & Nvw & _). cbv zeta.
  assert (E : hasError (hit_value s w) = true) by (rewrite (rs_hasError s v w H Hv Hw); destruct (N.eqb_spec w v); [congruence|reflexivity]).
  destruct (rs_ecc s v H) as (Ev & Ec & _).
  assert (K : correctErrors (hit_value s w) = (true, s)).
  { unfold correctErrors. rewrite E. cbn [negb]. change (coding_scheme_ (hit_value s w)) with (coding_scheme_ s). rewrite Ec. apply (rs_correct s v w k); assumption. }
  split; [exact E|]. split; [exact K|]. unfold getValue. rewrite E, K. cbn [snd]. rewrite Ev. reflexivity.
Qed.

(** a check byte is hit *)
Lemma one_byte_chk : forallb (fun i => forallb (fun x => (x =? 0) || negb (f1 (put x i i 0) (put x i i 1) (put x i i 2) (put x i i 3) =? 0) || negb (f2 (put x i i 0) (put x i i 1) (put x i i 2) (put x i i 3) =? 0)) bytes) [0;1;2;3] = true.
Proof. vm_compute. reflexivity. Qed.
Lemma one_byte u v i : word u -> word v -> i < 4 -> (forall j, j <> i -> byte u j = byte v j) -> on f0 u = on f0 v \/ on f1 u = on f1 v /\ on f2 u = on f2 v -> u = v.
Proof.
  intros Hu Hv Hi D C.
  assert (F : forall j, j <> i -> N.lxor (byte u j) (byte v j) = 0) by (intros j A; rewrite (D j A); apply N.lxor_nilpotent).
  assert (Zi : N.lxor (byte u i) (byte v i) = 0).
  { destruct C as [E0|[E1 E2]].
    - pose proof (diff_zero f0 u v f0_xor E0) as Z0. set (e := fun j => N.lxor (byte u j) (byte v j)). change (forall j, j <> i -> e j = 0) in F. change (f0 (e 0) (e 1) (e 2) (e 3) = 0) in Z0.
      unfold f0 in Z0. change (e i = 0). assert (Ci : i = 0 \/ i = 1 \/ i = 2 \/ i = 3) by lia.
      destruct Ci as [->|[->|[->| ->]]];
        repeat match type of Z0 with context [e ?j] => rewrite (F j) in Z0 by (intros Q; discriminate Q) end;
        rewrite ?N.lxor_0_l, ?N.lxor_0_r in Z0; exact Z0.
    - pose proof (diff_zero f1 u v f1_xor E1) as Z1. pose proof (diff_zero f2 u v f2_xor E2) as Z2.
      set (e := fun j => N.lxor (byte u j) (byte v j)). change (forall j, j <> i -> e j = 0) in F. change (f1 (e 0) (e 1) (e 2) (e 3) = 0) in Z1. change (f2 (e 0) (e 1) (e 2) (e 3) = 0) in Z2.
      assert (P : forall j, e j = put (e i) i i j).
      { intros j. unfold put. destruct (N.eqb_spec j i) as [->|A]; [reflexivity|]. apply F; assumption. }
      pose proof one_byte_chk as A. rewrite forallb_forall in A. specialize (A i (proj2 (in4 i) Hi)). cbv beta in A.
      rewrite forallb_forall in A. specialize (A (e i) (in_bytes _ (lxor_byte_lt _ _ (byte_lt u i) (byte_lt v i)))). cbv beta in A.
      rewrite <- !P in A. rewrite Z1, Z2 in A. change (negb (0 =? 0)) with false in A. rewrite !orb_false_r in A. apply N.eqb_eq in A. exact A. }
  apply word_bytes; [exact Hu|exact Hv|]. intros j Hj. apply N.lxor_eq. destruct (N.eq_dec j i) as [->|Ni]; [exact Zi|]. apply F, Ni.
Qed.
Lemma find_none_of {A} (f : A -> bool) l : (forall y, In y l -> f y = false) -> find f l = None.
Proof. intros H. destruct (find f l) as [y|] eqn:E; [|reflexivity]. apply find_some in E. destruct E as [I F]. rewrite (H y I) in F. discriminate. Qed.
Lemma rs_check_upset s v k x : holding s REED_SOLOMON v -> word v -> k < 8 -> x <> lget (ecc_data_ s) k ->
  let s' := hit_check s k x in hasError s' = true /\ correctErrors s' = (4 <=? k, s') /\ getValue s' = (v, s').
Proof.
  intros H Hv Hk Hx. cbv zeta. destruct (rs_ecc s v H) as (Ev & Ec & Eva & L & C & Hh).
  assert (G : forall j, lget (ecc_data_ (hit_check s k x)) j = if j =? k then x else lget (ecc_data_ s) j) by (intros j; apply hit_get; rewrite L; lia).
  assert (E : hasError (hit_check s k x) = true).
  { unfold hasError. cbn [hit_check valid_ coding_scheme_]. rewrite Ec, Eva. cbn [negb]. unfold checkReedSolomon. change (value_ (hit_check s k x)) with (value_ s). rewrite Ev.
    destruct (listeqb (checks v) (ecc_data_ (hit_check s k x)) [0; 1; 2; 3]) eqn:Q; [|reflexivity]. cbn [negb]. apply eq_true_not_negb. intros Q2.
    rewrite listeqb_spec in Q. rewrite forallb_forall in Q2.
    destruct (N.lt_ge_cases k 4) as [K4|K4].
    - specialize (Q k (proj2 (in4 k) K4)). rewrite G, N.eqb_refl in Q. rewrite C in Hx by exact K4. congruence.
    - specialize (Q2 (k - 4) (proj2 (in4 (k - 4)) ltac:(lia))). replace (4 + (k - 4)) with k in Q2 by lia. rewrite G, N.eqb_refl in Q2. apply N.eqb_eq in Q2.
      replace k with (4 + (k - 4)) in Hx by lia. rewrite Hh in Hx by lia. apply Hx. rewrite <- Q2. apply lget_bytes. lia. }
  assert (K : correctErrors (hit_check s k x) = (4 <=? k, hit_check s k x)).
  { unfold correctErrors. rewrite E. cbn [negb]. change (coding_scheme_ (hit_check s k x)) with (coding_scheme_ s). rewrite Ec, crs_unfold.
    change (value_ (hit_check s k x)) with (value_ s). rewrite Ev. destruct (N.leb_spec 4 k) as [K4|K4].
    - destruct (find_some_of (fun t => listeqb (checks (set_byte v (fst t) (snd t))) (ecc_data_ (hit_check s k x)) [0; 1; 2; 3]) trials (0, byte v 0)) as ([i j] & -> & I & F).
      + apply in_trials. split; [lia|apply byte_lt].
      + cbn [fst snd]. replace (set_byte v 0 (byte v 0)) with v; [|unfold set_byte; rewrite N.lxor_nilpotent, N.shiftl_0_l, N.lxor_0_r; reflexivity].
        apply listeqb_spec. intros i Hi. apply in4 in Hi. rewrite G. destruct (N.eqb_spec i k); [lia|]. symmetry. apply C, Hi.
      + cbn [fst snd] in F. apply in_trials in I. destruct I as [Hi Hj]. rewrite listeqb_spec in F.
        assert (E1 : set_byte v i j = v).
        { apply (one_byte _ _ i); [apply set_byte_word; assumption|exact Hv|exact Hi| |].
          - intros a Aa. rewrite byte_set by exact Hj. destruct (N.eqb_spec a i); [contradiction|reflexivity].
          - left. apply (checks_inj (set_byte v i j) v). apply checks_ext. intros a Ha. rewrite F by (apply in4, Ha). rewrite G. destruct (N.eqb_spec a k); [lia|]. apply C, Ha. }
        rewrite E1, <- Ev. reflexivity.
    - rewrite find_none_of; [reflexivity|]. intros [i j] I. cbn [fst snd]. apply in_trials in I. destruct I as [Hi Hj]. apply not_true_is_false. intros F. rewrite listeqb_spec in F.
      assert (F' : forall a, a < 4 -> a <> k -> lget (checks (set_byte v i j)) a = lget (checks v) a).
      { intros a Ha Na. rewrite F by (apply in4, Ha). rewrite G. destruct (N.eqb_spec a k); [contradiction|]. apply C, Ha. }
      assert (E1 : set_byte v i j = v).
      { apply (one_byte _ _ i); [apply set_byte_word; assumption|exact Hv|exact Hi| |].
        - intros a Aa. rewrite byte_set by exact Hj. destruct (N.eqb_spec a i); [contradiction|reflexivity].
        - rewrite !checks_spec in F'. destruct (N.eq_dec k 0) as [->|N0].
          + right. split; [exact (F' 1 ltac:(lia) ltac:(lia))|exact (F' 2 ltac:(lia) ltac:(lia))].
          + left. exact (F' 0 ltac:(lia) ltac:(congruence)). }
      apply Hx. rewrite C by exact K4. rewrite <- E1, F by (apply in4, K4). rewrite G, N.eqb_refl. reflexivity. }
  split; [exact E|]. split; [exact K|]. unfold getValue. rewrite E, K. cbn [snd]. change (value_ (hit_check s k x)) with (value_ s). rewrite Ev. reflexivity.
Qed.

(** *** a fresh object *)
Lemma fresh s c v : holding s c v -> word v -> hasError s = false /\ correctErrors s = (true, s) /\ getValue s = (v, s) /\ isValid s = true.
Proof.
  intros H Hv. destruct (holding_fields s c v H) as (Ev & Ec & Eva & _).
  assert (E : hasError s = false).
  { assert (Hm : ham c -> hasError s = false).
    { intros Hc. pose proof (data_hasError s c v 0 H Hc) as D. rewrite N.lxor_0_r, (hit_self s c v H) in D. rewrite D. reflexivity. }
    destruct c.
    - unfold hasError. rewrite Eva, Ec. reflexivity.
    - apply Hm. left. reflexivity.
    - apply Hm. right. reflexivity.
    - pose proof (rs_hasError s v v H Hv Hv) as D. rewrite (hit_self s _ v H), N.eqb_refl in D. exact D. }
  split; [exact E|]. unfold correctErrors, getValue, isValid. rewrite E, Ev, Eva. auto.
Qed.
