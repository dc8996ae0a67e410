From Coq Require Import List NArith ZArith Znumtheory Bool Lia FMapPositive.
Import ListNotations.
From Verif Require Import Words Crc_Model Crc_Spec Crc_Proofs.
Local Open Scope N_scope.
Arguments N.mul : simpl never.
Arguments N.add : simpl never.
Arguments N.pow : simpl never.

(** Powers of the step map by repeated squaring of its 32 columns. *)
Fixpoint app (cols : list N) (x : N) : N :=
  match cols with
  | [] => 0
  | c :: r => N.lxor (if N.odd x then c else 0) (app r (N.div2 x))
  end.
Definition cols_from (f : N -> N) (k n : nat) : list N := map (fun i => f (2 ^ N.of_nat i)) (seq k n).

Lemma app_cols (f : N -> N) (Hlin : forall x y, f (N.lxor x y) = N.lxor (f x) (f y)) n :
  forall k x, app (cols_from f k n) x = f (2 ^ N.of_nat k * (x mod 2 ^ N.of_nat n)).
Proof.
  assert (H0 : f 0 = 0). { pose proof (Hlin 0 0) as E. cbn in E. rewrite E. apply N.lxor_nilpotent. }
  induction n as [|n IH]; intros k x.
  - cbn. change (2 ^ N.of_nat 0) with 1. rewrite N.mod_1_r, N.mul_0_r. auto.
  - unfold cols_from. cbn [seq map app]. fold (cols_from f (S k) n). rewrite IH.
    rewrite !Nat2N.inj_succ, !N.pow_succ_r'.
    rewrite (N.mod_mul_r x 2 (2 ^ N.of_nat n)) by (try discriminate; apply N.pow_nonzero; discriminate).
    rewrite N.div2_div. set (y := (x / 2) mod 2 ^ N.of_nat n).
    assert (Eo : x mod 2 = if N.odd x then 1 else 0).
    { rewrite <- N.bit0_mod, N.bit0_odd. destruct (N.odd x); reflexivity. }
    rewrite Eo, N.mul_add_distr_l.
    replace (2 ^ N.of_nat k * (2 * y)) with (2 ^ (N.of_nat k + 1) * y)
      by (rewrite N.pow_add_r; change (2 ^ 1) with 2; lia).
    rewrite add_shift_lxor.
    + rewrite Hlin. f_equal.
      * destruct (N.odd x); [rewrite N.mul_1_r; reflexivity|rewrite N.mul_0_r; auto].
      * f_equal. rewrite N.pow_add_r. change (2 ^ 1) with 2. lia.
    + rewrite N.pow_add_r. change (2 ^ 1) with 2.
      assert (2 ^ N.of_nat k <> 0) by (apply N.pow_nonzero; discriminate).
      destruct (N.odd x); lia.
Qed.

Definition LN (q : N) (x : N) : N := Li (N.to_nat q) x.
Lemma LN_add a b x : LN (a + b) x = LN a (LN b x).
Proof. unfold LN. rewrite N2Nat.inj_add. apply Li_add. Qed.
Lemma LN_lin q x y : LN q (N.lxor x y) = N.lxor (LN q x) (LN q y).
Proof. apply Li_lin. Qed.
Lemma LN_below q x : x < 2 ^ 32 -> LN q x < 2 ^ 32.
Proof. apply Li_below. Qed.

Definition cols (q : N) : list N := cols_from (LN q) 0 32.
Lemma app_LN q x : x < 2 ^ 32 -> app (cols q) x = LN q x.
Proof.
  intros H. unfold cols. rewrite (app_cols (LN q) (LN_lin q)).
  change (2 ^ N.of_nat 0) with 1. change (N.of_nat 32) with 32. rewrite N.mul_1_l, N.mod_small by exact H. reflexivity.
Qed.

Definition L_cols : list N := Eval vm_compute in cols_from L 0 32.
Fixpoint pcols (p : positive) : list N :=
  match p with
  | xH => L_cols
  | xO p => let c := pcols p in map (app c) c
  | xI p => let c := pcols p in map (fun x => app L_cols (app c x)) c
  end.
Lemma app_L x : x < 2 ^ 32 -> app L_cols x = L x.
Proof.
  intros H. transitivity (app (cols_from L 0 32) x); [f_equal; vm_compute; reflexivity|].
  rewrite (app_cols L L_lin). change (2 ^ N.of_nat 0) with 1. change (N.of_nat 32) with 32. rewrite N.mul_1_l, N.mod_small by exact H. reflexivity.
Qed.
Lemma map_cols (g : N -> N) q : map g (cols q) = map (fun i => g (LN q (2 ^ N.of_nat i))) (seq 0 32).
Proof. unfold cols, cols_from. apply map_map. Qed.
Lemma pcols_ok p : pcols p = cols (Npos p).
Proof.
  induction p as [p IH|p IH|].
  - cbn [pcols]. rewrite IH. rewrite map_cols. change (cols (N.pos p~1)) with (map (fun i => LN (N.pos p~1) (2 ^ N.of_nat i)) (seq 0 32)). apply map_ext_in. intros i Hi.
    apply in_seq in Hi.
    assert (B : 2 ^ N.of_nat i < 2 ^ 32) by (apply pow2_below; lia).
    rewrite app_LN by (apply LN_below; exact B). rewrite app_L by (apply LN_below, LN_below; exact B).
    replace (N.pos p~1) with (1 + (N.pos p + N.pos p)) by lia.
    rewrite !LN_add. reflexivity.
  - cbn [pcols]. rewrite IH. rewrite map_cols. change (cols (N.pos p~0)) with (map (fun i => LN (N.pos p~0) (2 ^ N.of_nat i)) (seq 0 32)). apply map_ext_in. intros i Hi.
    apply in_seq in Hi.
    assert (B : 2 ^ N.of_nat i < 2 ^ 32) by (apply pow2_below; lia).
    rewrite app_LN by (apply LN_below; exact B).
    rewrite <- LN_add. replace (N.pos p~0) with (N.pos p + N.pos p) by lia. reflexivity.
  - vm_compute. reflexivity.
Qed.
Definition fastLN (q : positive) : N := app (pcols q) 1.
Lemma fastLN_ok q : LN (Npos q) 1 = fastLN q.
Proof. unfold fastLN. rewrite pcols_ok. symmetry. apply app_LN. reflexivity. Qed.

(** *** x has order exactly 2^32 - 1 modulo the polynomial *)
Definition ord : N := 2 ^ 32 - 1.
Lemma ord_period : LN ord 1 = 1.
Proof. change ord with (Npos 4294967295). rewrite fastLN_ok. vm_compute. reflexivity. Qed.
Lemma not_period_3 : LN 1431655765 1 <> 1.
Proof. rewrite fastLN_ok. vm_compute. discriminate. Qed.
Lemma not_period_5 : LN 858993459 1 <> 1.
Proof. rewrite fastLN_ok. vm_compute. discriminate. Qed.
Lemma not_period_17 : LN 252645135 1 <> 1.
Proof. rewrite fastLN_ok. vm_compute. discriminate. Qed.
Lemma not_period_257 : LN 16711935 1 <> 1.
Proof. rewrite fastLN_ok. vm_compute. discriminate. Qed.
Lemma not_period_65537 : LN 65535 1 <> 1.
Proof. rewrite fastLN_ok. vm_compute. discriminate. Qed.

Lemma period_mul g m : LN g 1 = 1 -> LN (g * m) 1 = 1.
Proof.
  intros H. induction m as [|m IH] using N.peano_ind; [rewrite N.mul_0_r; reflexivity|].
  rewrite N.mul_succ_r, N.add_comm, LN_add, IH. exact H.
Qed.
Lemma period_gcd a b : a <> 0 -> LN a 1 = 1 -> LN b 1 = 1 -> LN (N.gcd a b) 1 = 1.
Proof.
  intros Ha HA HB. destruct (N.gcd_bezout_pos a b ltac:(lia)) as [u [v E]].
  pose proof (period_mul a u HA) as EA. pose proof (period_mul b v HB) as EB.
  rewrite (N.mul_comm a u), E in EA. rewrite LN_add in EA. rewrite (N.mul_comm v b), EB in EA. exact EA.
Qed.

Fixpoint coprime_run (n : nat) (k p : Z) : bool :=
  match n with O => true | S n => if Z.eqb (Z.gcd k p) 1 then coprime_run n (k + 1) p else false end.
Lemma coprime_run_ok n : forall k p, coprime_run n k p = true ->
  forall z, (k <= z < k + Z.of_nat n)%Z -> Z.gcd z p = 1%Z.
Proof.
  induction n as [|n IH]; intros k p H z Hz; [lia|].
  cbn [coprime_run] in H. destruct (Z.eqb_spec (Z.gcd k p) 1) as [E|E]; [|discriminate].
  destruct (Z.eq_dec z k) as [->|Hn]; [exact E|]. apply (IH (k + 1)%Z p H). lia.
Qed.
Definition prime_check (p : Z) : bool := coprime_run (Z.to_nat (p - 1)) 1 p.
Lemma prime_check_ok p : (1 < p)%Z -> prime_check p = true -> prime p.
Proof.
  intros Hp H. constructor; [exact Hp|]. intros n Hn.
  apply Zgcd_1_rel_prime. apply (coprime_run_ok _ _ _ H). lia.
Qed.
Lemma prime3 : prime 3. Proof. apply prime_check_ok; [lia|vm_compute; reflexivity]. Qed.
Lemma prime5 : prime 5. Proof. apply prime_check_ok; [lia|vm_compute; reflexivity]. Qed.
Lemma prime17 : prime 17. Proof. apply prime_check_ok; [lia|vm_compute; reflexivity]. Qed.
Lemma prime257 : prime 257. Proof. apply prime_check_ok; [lia|vm_compute; reflexivity]. Qed.
Lemma prime65537 : prime 65537. Proof. apply prime_check_ok; [lia|vm_compute; reflexivity]. Qed.

Lemma prime_or r m : prime r -> (r | m)%Z \/ rel_prime m r.
Proof.
  intros Hr. destruct (Zdivide_dec r m) as [D|D]; [left; exact D|right].
  apply rel_prime_sym, prime_rel_prime; assumption.
Qed.
Lemma ord_cofactor m : (1 < m)%Z -> (m | 4294967295)%Z ->
  (3 | m)%Z \/ (5 | m)%Z \/ (17 | m)%Z \/ (257 | m)%Z \/ (65537 | m)%Z.
Proof.
  intros Hm D.
  destruct (prime_or 3 m prime3) as [|R3]; [auto|].
  destruct (prime_or 5 m prime5) as [|R5]; [auto|].
  destruct (prime_or 17 m prime17) as [|R17]; [auto|].
  destruct (prime_or 257 m prime257) as [|R257]; [auto|].
  destruct (prime_or 65537 m prime65537) as [|R65537]; [auto|].
  exfalso.
  pose proof (rel_prime_mult _ _ _ (rel_prime_mult _ _ _ (rel_prime_mult _ _ _ (rel_prime_mult _ _ _ R3 R5) R17) R257) R65537) as R.
  change (3 * 5 * 17 * 257 * 65537)%Z with 4294967295%Z in R.
  destruct R as [_ _ R]. specialize (R m (Z.divide_refl m) D). apply Z.divide_1_r in R. lia.
Qed.

Lemma order_exact q : 0 < q -> q < ord -> LN q 1 <> 1.
Proof.
  intros H0 H1 E.
  assert (G : LN (N.gcd q ord) 1 = 1) by (apply period_gcd; [lia|exact E|exact ord_period]).
  set (g := N.gcd q ord) in *.
  assert (Dq : N.divide g q) by apply N.gcd_divide_l.
  assert (Do : N.divide g ord) by apply N.gcd_divide_r.
  apply N.divide_pos_le in Dq; [|exact H0].
  destruct Do as [m Em].
  assert (Hm : 1 < m) by nia.
  assert (Hd : (Z.of_N m | 4294967295)%Z).
  { exists (Z.of_N g). change 4294967295%Z with (Z.of_N ord). rewrite Em. lia. }
  assert (K : forall r s, N.to_nat r <> O -> (Z.of_N r | Z.of_N m)%Z -> ord = r * s -> LN s 1 = 1).
  { intros r s Hr [z Ez] Es.
    assert (Hz : (0 <= z)%Z) by nia.
    assert (Em' : m = Z.to_N z * r) by lia.
    assert (s = g * Z.to_N z).
    { assert (r * s = r * (g * Z.to_N z)) by (rewrite <- Es, Em, Em'; lia). nia. }
    subst s. apply period_mul. exact G. }
  destruct (ord_cofactor (Z.of_N m) ltac:(lia) Hd) as [D|[D|[D|[D|D]]]].
  - apply not_period_3. apply (K 3); [discriminate|exact D|reflexivity].
  - apply not_period_5. apply (K 5); [discriminate|exact D|reflexivity].
  - apply not_period_17. apply (K 17); [discriminate|exact D|reflexivity].
  - apply not_period_257. apply (K 257); [discriminate|exact D|reflexivity].
  - apply not_period_65537. apply (K 65537); [lia|exact D|reflexivity].
Qed.

(** *** Double-bit errors *)
Lemma LN_shift k x : LN k (2 ^ k * x) = x.
Proof. apply Li_shiftN. Qed.
Lemma two_bits n p q : p < q -> q < n -> n <= ord ->
  LN n (N.lxor (2 ^ p) (2 ^ q)) <> 0.
Proof.
  intros Hpq Hq Hn E.
  assert (F : N.lxor (2 ^ p) (2 ^ q) = 2 ^ p * N.lxor 1 (2 ^ (q - p) * 1)).
  { replace q with (p + (q - p)) at 1 by lia. rewrite N.pow_add_r, N.mul_1_r.
    rewrite !(N.mul_comm (2 ^ p)). rewrite <- !N.shiftl_mul_pow2, N.shiftl_lxor.
    rewrite N.shiftl_1_l. reflexivity. }
  replace n with ((n - q) + ((q - p) + p)) in E by lia.
  rewrite F, !LN_add, LN_shift, (LN_lin (q - p)), LN_shift in E.
  apply Li_inj0 in E.
  - apply N.lxor_eq in E. apply (order_exact (q - p)); [lia|lia|exact E].
  - apply lxor_below; [apply LN_below; reflexivity|reflexivity].
Qed.

Lemma differ_lxor2 bs bs' p q : is_bytes bs -> is_bytes bs' -> p <> q ->
  differ_exactly [p; q] bs bs' -> diff bs bs' = N.lxor (2 ^ p) (2 ^ q).
Proof.
  intros H H' Hpq D. apply N.bits_inj. intros i. rewrite N.lxor_spec, !pow2_bits.
  pose proof (D i) as [D1 D2]. pose proof (diff_bit_iff bs bs' i H H') as [B1 B2].
  destruct (N.testbit (diff bs bs') i) eqn:B.
  - specialize (D1 (B1 eq_refl)). destruct D1 as [<-|[<-|[]]]; rewrite N.eqb_refl.
    + destruct (N.eqb_spec p q); [contradiction|reflexivity].
    + destruct (N.eqb_spec q p); [congruence|reflexivity].
  - destruct (N.eqb_spec i p) as [->|E1].
    + exfalso. assert (X : false = true) by (apply B2, D2; left; reflexivity). discriminate.
    + destruct (N.eqb_spec i q) as [->|E2]; [|reflexivity].
      exfalso. assert (X : false = true) by (apply B2, D2; right; left; reflexivity). discriminate.
Qed.

Lemma in_range bs bs' ps i : length bs = length bs' -> differ_exactly ps bs bs' -> In i ps ->
  i < 8 * N.of_nat (length bs).
Proof.
  intros Hl D Hi. apply D in Hi. destruct (N.ltb_spec i (8 * N.of_nat (length bs))) as [G|G]; [exact G|].
  exfalso. apply Hi. rewrite !msg_bit_beyond by lia. reflexivity.
Qed.

Lemma double_detected bs bs' p q : is_bytes bs -> is_bytes bs' -> length bs = length bs' ->
  N.of_nat (length bs) < 2 ^ 29 -> p <> q -> differ_exactly [p; q] bs bs' ->
  CRC_calculate bs <> CRC_calculate bs'.
Proof.
  intros H H' Hl Hn Hpq D E. rewrite !CRC_value in E by assumption.
  apply (collide_iff bs bs' Hl) in E. rewrite (differ_lxor2 bs bs' p q) in E by assumption.
  pose proof (in_range bs bs' _ p Hl D ltac:(left; reflexivity)) as Bp.
  pose proof (in_range bs bs' _ q Hl D ltac:(right; left; reflexivity)) as Bq.
  replace (8 * length bs)%nat with (N.to_nat (8 * N.of_nat (length bs))) in E by lia.
  fold (LN (8 * N.of_nat (length bs)) (N.lxor (2 ^ p) (2 ^ q))) in E.
  assert (8 * N.of_nat (length bs) <= ord).
  { unfold ord. change (2 ^ 32) with (8 * 2 ^ 29). lia. }
  destruct (N.lt_total p q) as [L1|[L1|L1]].
  - apply (two_bits _ p q) in E; auto.
  - contradiction.
  - rewrite N.lxor_comm in E. apply (two_bits _ q p) in E; auto.
Qed.

(** the bound is tight: at 2^29 bytes and above some double-bit error is invisible in every message *)
Fixpoint upd (n : nat) (f : N -> N) (l : list N) : list N :=
  match l, n with
  | [], _ => []
  | x :: r, O => f x :: r
  | x :: r, S k => x :: upd k f r
  end.
Lemma upd_length n f l : length (upd n f l) = length l.
Proof. revert n; induction l as [|x r IH]; intros [|n]; cbn; auto. Qed.
Lemma upd_bytes n f l : (forall x, x < 256 -> f x < 256) -> is_bytes l -> is_bytes (upd n f l).
Proof.
  intros Hf. revert n; induction l as [|x r IH]; intros [|n] H; cbn; auto; inversion H; subst;
  constructor; auto. apply IH. assumption.
Qed.
Lemma upd_nth n f l j : (n < length l)%nat ->
  nth j (upd n f l) 0 = if Nat.eqb j n then f (nth j l 0) else nth j l 0.
Proof.
  revert n j; induction l as [|x r IH]; intros [|n] [|j] H; cbn in *; try lia; try reflexivity.
  apply IH. lia.
Qed.
Definition flip_msg (i : N) (bs : list N) : list N :=
  upd (N.to_nat (i / 8)) (fun b => N.lxor b (2 ^ (i mod 8))) bs.
Lemma flip_msg_bytes i bs : is_bytes bs -> is_bytes (flip_msg i bs).
Proof.
  apply upd_bytes. intros x Hx. apply (lxor_below 8); [exact Hx|].
  apply pow2_below. apply N.mod_lt. discriminate.
Qed.
Lemma flip_msg_bit i bs j : i < 8 * N.of_nat (length bs) ->
  msg_bit (flip_msg i bs) j = xorb (msg_bit bs j) (j =? i).
Proof.
  intros Hi. unfold msg_bit, flip_msg.
  assert (i / 8 < N.of_nat (length bs)) by (apply N.div_lt_upper_bound; lia).
  rewrite upd_nth by lia.
  destruct (Nat.eqb_spec (N.to_nat (j / 8)) (N.to_nat (i / 8))) as [E|E].
  - rewrite N.lxor_spec, pow2_bits. f_equal.
    assert (E' : j / 8 = i / 8) by lia.
    pose proof (N.div_mod j 8 ltac:(discriminate)). pose proof (N.div_mod i 8 ltac:(discriminate)).
    destruct (N.eqb_spec (j mod 8) (i mod 8)); destruct (N.eqb_spec j i); try reflexivity; subst; lia.
  - destruct (N.eqb_spec j i) as [->|]; [congruence|]. rewrite xorb_false_r. reflexivity.
Qed.
Lemma flip_msg_length i bs : length (flip_msg i bs) = length bs.
Proof. apply upd_length. Qed.

Lemma double_tight bs : is_bytes bs -> 2 ^ 29 <= N.of_nat (length bs) ->
  exists bs', is_bytes bs' /\ length bs' = length bs /\ differ_exactly [0; 2 ^ 32 - 1] bs bs' /\
              CRC_calculate bs = CRC_calculate bs'.
Proof.
  intros H Hn. change (2 ^ 29) with 536870912 in Hn. change (2 ^ 32 - 1) with 4294967295.
  set (bs' := flip_msg 4294967295 (flip_msg 0 bs)).
  assert (Hb' : is_bytes bs') by (apply flip_msg_bytes, flip_msg_bytes; exact H).
  assert (Hl : length bs' = length bs) by (unfold bs'; rewrite !flip_msg_length; reflexivity).
  assert (D : differ_exactly [0; 4294967295] bs bs').
  { intros i. unfold bs'. rewrite flip_msg_bit by (rewrite flip_msg_length; lia).
    rewrite flip_msg_bit by lia. cbn [In].
    destruct (N.eqb_spec i 0) as [->|E0]; [|destruct (N.eqb_spec i 4294967295) as [->|E1]].
    - change (0 =? 4294967295) with false. split; [intros _; left; reflexivity|intros _].
      destruct (msg_bit bs 0); cbn; intros X; discriminate X.
    - split; [intros _; right; left; reflexivity|intros _].
      destruct (msg_bit bs 4294967295); cbn; intros X; discriminate X.
    - rewrite !xorb_false_r. split; [congruence|]. intros [E|[E|[]]]; congruence. }
  exists bs'. split; [exact Hb'|]. split; [exact Hl|]. split; [exact D|].
  rewrite !CRC_value by assumption. apply collide_iff; [congruence|].
  rewrite (differ_lxor2 bs bs' 0 4294967295 H Hb' ltac:(discriminate) D).
  assert (Z : forall n, 4294967295 <= n -> LN n (N.lxor (2 ^ 0) (2 ^ 4294967295)) = 0).
  { intros n G. replace n with ((n - 4294967295) + 4294967295) by lia.
    rewrite LN_add, LN_lin. rewrite <- (N.mul_1_r (2 ^ 4294967295)), LN_shift.
    change (2 ^ 0) with 1. change 4294967295 with ord at 2. rewrite ord_period, N.lxor_nilpotent. apply Li_0. }
  specialize (Z (8 * N.of_nat (length bs)) ltac:(lia)). unfold LN in Z.
  replace (8 * length bs)%nat with (N.to_nat (8 * N.of_nat (length bs))) by lia. exact Z.
Qed.

(** *** Up to six flipped bits in an object of at most 8 bytes *)
(* masks of at most [k] ones among [n] bits, with their remainders after 64 steps *)
Fixpoint subs (n k : nat) : list N :=
  match n with
  | O => [0]
  | S n => map N.double (subs n k) ++
           match k with O => [] | S k' => map N.succ_double (subs n k') end
  end.
Lemma subs_complete n : forall k x, x < 2 ^ N.of_nat n -> popcount x <= N.of_nat k -> In x (subs n k).
Proof.
  induction n as [|n IH]; intros k x Hx Hp.
  - change (2 ^ N.of_nat 0) with 1 in Hx. left. lia.
  - rewrite Nat2N.inj_succ, N.pow_succ_r' in Hx. cbn [subs]. apply in_or_app.
    destruct (N.odd x) eqn:O; pose proof (N.div2_odd x) as D; rewrite O in D; cbn [N.b2n] in D.
    + right. rewrite D, popcount_succ_double in Hp. destruct k as [|k]; [lia|].
      apply in_map_iff. exists (N.div2 x). split; [rewrite N.succ_double_spec; symmetry; exact D|].
      apply IH; lia.
    + left. rewrite D, N.add_0_r, popcount_double in Hp.
      apply in_map_iff. exists (N.div2 x). split; [rewrite N.double_spec; lia|]. apply IH; lia.
Qed.

Definition app64 : list N := Eval vm_compute in cols_from (Li 64) 0 64.
Lemma app64_ok x : x < 2 ^ 64 -> app app64 x = Li 64 x.
Proof.
  intros H. transitivity (app (cols_from (Li 64) 0 64) x); [f_equal; vm_compute; reflexivity|].
  rewrite (app_cols (Li 64) (Li_lin 64)). change (2 ^ N.of_nat 0) with 1. change (N.of_nat 64) with 64. rewrite N.mul_1_l, N.mod_small by exact H. reflexivity.
Qed.
Fixpoint distinct (l : list N) (m : PositiveMap.t unit) : bool :=
  match l with
  | [] => true
  | x :: r => let p := N.succ_pos x in
              if PositiveMap.mem p m then false else distinct r (PositiveMap.add p tt m)
  end.
Lemma distinct_ok l : forall m, distinct l m = true ->
  NoDup l /\ (forall x, In x l -> PositiveMap.mem (N.succ_pos x) m = false).
Proof.
  induction l as [|x r IH]; intros m H; [split; [constructor|intros _ []]|].
  cbn [distinct] in H. destruct (PositiveMap.mem (N.succ_pos x) m) eqn:M; [discriminate|].
  apply IH in H as [H1 H2].
  assert (A : forall y, PositiveMap.mem (N.succ_pos y) (PositiveMap.add (N.succ_pos x) tt m) = false ->
                        y <> x /\ PositiveMap.mem (N.succ_pos y) m = false).
  { intros y Hy. rewrite PositiveMap.mem_find in Hy.
    destruct (N.eq_dec y x) as [->|E]; [rewrite PositiveMap.gss in Hy; discriminate|].
    split; [exact E|]. rewrite PositiveMap.gso in Hy; [rewrite PositiveMap.mem_find; exact Hy|].
    intros F. apply E. apply (f_equal (fun p => Pos.pred_N p)) in F. rewrite !N.pos_pred_succ in F. exact F. }
  split.
  - constructor; [|exact H1]. intros Hx. apply H2, A in Hx as [Hx _]. congruence.
  - intros y [<-|Hy]; [exact M|]. apply H2, A in Hy as [_ Hy]. exact Hy.
Qed.
Definition syndromes : list N := map (app app64) (subs 64 3).
Lemma syndromes_distinct : distinct syndromes (PositiveMap.empty unit) = true.
Proof. vm_compute. reflexivity. Qed.
Lemma NoDup_map_inj {A B} (f : A -> B) l x y : NoDup (map f l) -> In x l -> In y l -> f x = f y -> x = y.
Proof.
  induction l as [|a r IH]; intros H Hx Hy E; [contradiction|].
  inversion H as [|b l' Hn Hr]; subst. destruct Hx as [<-|Hx], Hy as [<-|Hy]; auto.
  - exfalso. apply Hn. rewrite E. apply in_map. exact Hy.
  - exfalso. apply Hn. rewrite <- E. apply in_map. exact Hx.
Qed.
Lemma light_inj x y : x < 2 ^ 64 -> y < 2 ^ 64 -> popcount x <= 3 -> popcount y <= 3 ->
  Li 64 x = Li 64 y -> x = y.
Proof.
  intros Hx Hy Px Py E. rewrite <- !app64_ok in E by assumption.
  apply (NoDup_map_inj (app app64) (subs 64 3)); auto.
  - apply (distinct_ok _ _ syndromes_distinct).
  - apply subs_complete; [exact Hx|exact Px].
  - apply subs_complete; [exact Hy|exact Py].
Qed.

(* xor of distinct powers *)
Definition mask (ps : list N) : N := fold_right (fun p m => N.lxor (2 ^ p) m) 0 ps.
Lemma mask_bit ps i : NoDup ps -> N.testbit (mask ps) i = true <-> In i ps.
Proof.
  induction ps as [|p r IH]; intros H; [cbn; split; [discriminate|contradiction]|].
  inversion H as [|a b Hn Hr]; subst. cbn [mask fold_right]. fold (mask r).
  rewrite N.lxor_spec, pow2_bits. cbn [In]. specialize (IH Hr).
  destruct (N.eqb_spec i p) as [->|E].
  - destruct (N.testbit (mask r) p) eqn:B; [exfalso; apply Hn, IH; reflexivity|]. cbn. split; auto.
  - rewrite xorb_false_l. rewrite IH. split; [auto|]. intros [F|F]; [congruence|exact F].
Qed.
Lemma mask_app a b : mask (a ++ b) = N.lxor (mask a) (mask b).
Proof.
  induction a as [|p r IH]; [cbn; reflexivity|].
  cbn [mask List.app fold_right]. fold (mask (r ++ b)) (mask r). rewrite IH, N.lxor_assoc. reflexivity.
Qed.
Lemma popcount_lxor_le x y : popcount (N.lxor x y) <= popcount x + popcount y.
Proof.
  assert (G : forall p q, popcount (N.lxor (Npos p) (Npos q)) <= pos_count p + pos_count q).
  { induction p as [p IH|p IH|]; intros [q|q|]; cbn -[N.add];
    try (specialize (IH q); cbn in IH; destruct (Pos.lxor p q); cbn -[N.add] in *; lia);
    try (destruct p; cbn -[N.add]; lia); try (destruct q; cbn -[N.add]; lia); lia. }
  destruct x as [|p], y as [|q]; cbn -[N.add]; try lia. apply (G p q).
Qed.
Lemma popcount_mask ps : popcount (mask ps) <= N.of_nat (length ps).
Proof.
  induction ps as [|p r IH]; [cbn; lia|]. cbn [mask fold_right length]. fold (mask r).
  pose proof (popcount_lxor_le (2 ^ p) (mask r)). rewrite popcount_pow2 in H. lia.
Qed.
Lemma mask_below ps w : (forall p, In p ps -> p < w) -> mask ps < 2 ^ w.
Proof.
  intros H. induction ps as [|p r IH]; [cbn; apply N.neq_0_lt_0, N.pow_nonzero; discriminate|].
  cbn [mask fold_right]. apply lxor_below; [apply pow2_below, H; left; reflexivity|].
  apply IH. intros q Hq. apply H. right. exact Hq.
Qed.

Lemma six_detected bs bs' ps : is_bytes bs -> is_bytes bs' -> length bs = length bs' -> (length bs <= 8)%nat ->
  ps <> [] -> NoDup ps -> (length ps <= 6)%nat -> differ_exactly ps bs bs' ->
  CRC_calculate bs <> CRC_calculate bs'.
Proof.
  intros H H' Hl H8 Hne Hnd H6 D E. rewrite !CRC_value in E by assumption.
  apply (collide_iff bs bs' Hl) in E.
  assert (Ed : diff bs bs' = mask ps).
  { apply N.bits_inj. intros i. pose proof (mask_bit ps i Hnd) as M. pose proof (diff_bit_iff bs bs' i H H') as B.
    pose proof (D i) as Di.
    destruct (N.testbit (diff bs bs') i), (N.testbit (mask ps) i); try reflexivity; intuition congruence. }
  assert (R : forall p, In p ps -> p < 64).
  { intros p Hp. pose proof (in_range bs bs' ps p Hl D Hp). lia. }
  assert (E64 : Li 64 (mask ps) = 0).
  { rewrite <- Ed. replace 64%nat with ((64 - 8 * length bs) + 8 * length bs)%nat by lia.
    rewrite Li_add, E. apply Li_0. }
  set (a := firstn 3 ps). set (b := skipn 3 ps).
  assert (Eps : ps = a ++ b) by (symmetry; apply firstn_skipn).
  assert (La : (length a <= 3)%nat) by apply firstn_le_length.
  assert (Lb : (length b <= 3)%nat) by (unfold b; rewrite skipn_length; lia).
  rewrite Eps, mask_app, Li_lin in E64. apply N.lxor_eq in E64.
  assert (Eab : mask a = mask b).
  { apply light_inj; auto.
    - apply mask_below. intros p Hp. apply R. rewrite Eps. apply in_or_app. auto.
    - apply mask_below. intros p Hp. apply R. rewrite Eps. apply in_or_app. auto.
    - pose proof (popcount_mask a). lia.
    - pose proof (popcount_mask b). lia. }
  assert (Z : mask ps = 0) by (rewrite Eps, mask_app, Eab; apply N.lxor_nilpotent).
  destruct ps as [|p r]; [contradiction|].
  assert (B : N.testbit (mask (p :: r)) p = true) by (apply mask_bit; [exact Hnd|left; reflexivity]).
  rewrite Z, N.bits_0 in B. discriminate.
Qed.

(** *** memory::MemoryScrubber: the incomplete table loses errors *)
Lemma scrubber_blind pre post : exists b, b < 256 /\ N.lxor b 1 < 256 /\
  Scrubber_calculateCRC32 (pre ++ b :: post) = Scrubber_calculateCRC32 (pre ++ N.lxor b 1 :: post).
Proof.
  set (c := fold_left (table_byte scrubber_table) pre 0xFFFFFFFF).
  set (b := N.lxor (N.land c 255) 252).
  assert (Hc : N.land c 255 < 2 ^ 8) by (change 255 with (N.ones 8); rewrite N.land_ones; apply N.mod_lt; discriminate).
  assert (Hb : b < 256) by (apply (lxor_below 8); [exact Hc|reflexivity]).
  assert (Hb1 : N.lxor b 1 < 256) by (apply (lxor_below 8); [exact Hb|reflexivity]).
  exists b. split; [exact Hb|]. split; [exact Hb1|].
  unfold Scrubber_calculateCRC32, table_crc. rewrite !fold_left_app. fold c. cbn [fold_left].
  assert (I : forall d, d < 256 -> N.land (N.lxor c (N.lxor (N.land c 255) d)) 255 = d).
  { intros d Hd. apply N.bits_inj. intros i. rewrite N.land_spec, !N.lxor_spec, N.land_spec.
    change 255 with (N.ones 8). destruct (N.ltb_spec i 8) as [G|G].
    - rewrite N.ones_spec_low by exact G. destruct (N.testbit c i), (N.testbit d i); reflexivity.
    - rewrite N.ones_spec_high by exact G. rewrite andb_false_r. symmetry. apply (testbit_above 8); assumption. }
  assert (T : forall d, (252 <= d < 256) -> table_byte scrubber_table c (N.lxor (N.land c 255) d) = N.shiftr c 8).
  { intros d Hd. unfold table_byte. rewrite I by lia.
    assert (Z : nth (N.to_nat d) scrubber_table 0 = 0).
    { assert (d = 252 \/ d = 253 \/ d = 254 \/ d = 255) as [->|[->|[->| ->]]] by lia; vm_compute; reflexivity. }
    rewrite Z. apply N.lxor_0_r. }
  unfold b. rewrite (T 252) by lia. rewrite N.lxor_assoc. rewrite (T (N.lxor 252 1)) by (cbn; lia). reflexivity.
Qed.
