(** Hamming part of MultibitProtection. *)
From Coq Require Import List NArith ZArith Bool Lia.
Import ListNotations.
From Verif Require Import Outcome Words MBP_Model.
Local Open Scope N_scope.
Local Arguments N.add : simpl never.
Local Arguments N.mul : simpl never.
Local Arguments N.pow : simpl never.
Local Arguments N.lxor : simpl never.
Local Arguments N.shiftl : simpl never.
Local Arguments N.testbit : simpl never.

Lemma lset_length l i x : length (lset l i x) = length l.
Proof. revert i. induction l as [|h r IH]; intros [|i]; cbn [lset length]; auto. Qed.
Lemma lset_nth l i x j d : (i < length l)%nat -> nth j (lset l i x) d = if Nat.eqb j i then x else nth j l d.
Proof.
  revert i j. induction l as [|h r IH]; intros [|i] [|j] H; cbn [lset length nth Nat.eqb] in *; try lia; auto.
  apply IH. lia.
Qed.
Lemma lxorat_length l i x : length (lxorat l i x) = length l.
Proof. apply lset_length. Qed.
Lemma lxorat_get l i x j : (N.to_nat i < length l)%nat -> lget (lxorat l i x) j = if j =? i then wrap 8 (N.lxor (lget l i) x) else lget l j.
Proof.
  intros H. unfold lget at 1, lxorat. rewrite lset_nth by exact H. destruct (N.eqb_spec j i) as [->|E].
  - rewrite Nat.eqb_refl. reflexivity.
  - destruct (Nat.eqb_spec (N.to_nat j) (N.to_nat i)); [lia|reflexivity].
Qed.
Lemma xor_b2n a b : N.lxor (b2n a) (b2n b) = b2n (xorb a b).
Proof. destruct a, b; reflexivity. Qed.
Lemma wrap8_b2n b : wrap 8 (b2n b) = b2n b.
Proof. destruct b; reflexivity. Qed.
Lemma b2n_eqb a b : (b2n a =? b2n b) = Bool.eqb a b.
Proof. destruct a, b; reflexivity. Qed.

(** xor of (i + 1) over the set bits i < n, and the parity of those bits *)
Definition code_n (n : nat) (v : N) : N := for_up n 0 (fun i s => if N.testbit v i then N.lxor s (i + 1) else s) 0.
Definition par_n (n : nat) (v : N) : bool := for_up n 0 (fun i b => xorb b (N.testbit v i)) false.
Lemma code_S n v : code_n (S n) v = if N.testbit v (N.of_nat n) then N.lxor (code_n n v) (N.of_nat n + 1) else code_n n v.
Proof. unfold code_n. rewrite for_up_snoc. reflexivity. Qed.
Lemma par_S n v : par_n (S n) v = xorb (par_n n v) (N.testbit v (N.of_nat n)).
Proof. unfold par_n. rewrite for_up_snoc. reflexivity. Qed.
Lemma code_xor n v e : code_n n (N.lxor v e) = N.lxor (code_n n v) (code_n n e).
Proof.
  induction n as [|n IH]; [reflexivity|]. rewrite !code_S, N.lxor_spec, IH. set (a := code_n n v). set (b := code_n n e). set (c := N.of_nat n + 1).
  destruct (N.testbit v (N.of_nat n)), (N.testbit e (N.of_nat n)); cbn [xorb]; apply N.bits_inj; intros k; rewrite !N.lxor_spec;
    destruct (N.testbit a k), (N.testbit b k), (N.testbit c k); reflexivity.
Qed.
Lemma par_xor n v e : par_n n (N.lxor v e) = xorb (par_n n v) (par_n n e).
Proof.
  induction n as [|n IH]; [reflexivity|]. rewrite !par_S, N.lxor_spec, IH.
  destruct (par_n n v), (par_n n e), (N.testbit v (N.of_nat n)), (N.testbit e (N.of_nat n)); reflexivity.
Qed.
Definition code := code_n 32.
Definition par := par_n 32.
(** parity of the low six bits *)
Definition par6 (s : N) : bool := for_up 6 0 (fun j b => xorb b (N.testbit s j)) false.
Lemma par6_xor a b : par6 (N.lxor a b) = xorb (par6 a) (par6 b).
Proof.
  unfold par6. cbn [for_up]. rewrite !N.lxor_spec.
  destruct (N.testbit a 0), (N.testbit a (0+1)), (N.testbit a (0+1+1)), (N.testbit a (0+1+1+1)), (N.testbit a (0+1+1+1+1)), (N.testbit a (0+1+1+1+1+1));
  destruct (N.testbit b 0), (N.testbit b (0+1)), (N.testbit b (0+1+1)), (N.testbit b (0+1+1+1)), (N.testbit b (0+1+1+1+1)), (N.testbit b (0+1+1+1+1+1)); reflexivity.
Qed.
Lemma code_lt v : code v < 64.
Proof.
  unfold code. assert (H : forall n, (n <= 32)%nat -> code_n n v < 2 ^ 6).
  { induction n as [|n IH]; intros Hn; [reflexivity|]. rewrite code_S. destruct (N.testbit v (N.of_nat n)); [|apply IH; lia].
    apply lxor_below; [apply IH; lia|]. change (2 ^ 6) with 64. lia. }
  apply (H 32%nat). lia.
Qed.

Definition inner (i : N) (p : list N) : list N := for_up 6 0 (fun j p => if N.testbit (i + 1) j then lxorat p j 1 else p) p.
Lemma inner_spec i p (f : N -> bool) : length p = 7%nat -> (forall j, j < 7 -> lget p j = b2n (f j)) ->
  length (inner i p) = 7%nat /\ forall j, j < 7 -> lget (inner i p) j = b2n (if j <? 6 then xorb (f j) (N.testbit (i + 1) j) else f j).
Proof.
  intros L H. unfold inner.
  assert (G : forall n, (n <= 6)%nat -> let q := for_up n 0 (fun j p => if N.testbit (i + 1) j then lxorat p j 1 else p) p in
    length q = 7%nat /\ forall j, j < 7 -> lget q j = b2n (if j <? N.of_nat n then xorb (f j) (N.testbit (i + 1) j) else f j)).
  { induction n as [|n IH]; cbv zeta in *; intros Hn.
    - split; [exact L|]. intros j Hj. cbn [for_up]. replace (j <? N.of_nat 0) with false by (symmetry; apply N.ltb_ge; lia). apply H, Hj.
    - rewrite for_up_snoc. set (q := for_up n 0 _ p) in *. destruct (IH ltac:(lia)) as [Lq Gq]. replace (0 + N.of_nat n) with (N.of_nat n) by lia.
      destruct (N.testbit (i + 1) (N.of_nat n)) eqn:Eb.
      + split; [rewrite lxorat_length; exact Lq|]. intros j Hj. rewrite lxorat_get by lia. destruct (N.eqb_spec j (N.of_nat n)) as [->|Nj].
        * rewrite Gq by lia. replace (N.of_nat n <? N.of_nat n) with false by (symmetry; apply N.ltb_irrefl).
          replace (N.of_nat n <? N.of_nat (S n)) with true by (symmetry; apply N.ltb_lt; lia). rewrite Eb.
          change 1 with (b2n true). rewrite xor_b2n. apply wrap8_b2n.
        * rewrite Gq by exact Hj. replace (j <? N.of_nat (S n)) with (j <? N.of_nat n); [reflexivity|].
          destruct (N.ltb_spec j (N.of_nat n)), (N.ltb_spec j (N.of_nat (S n))); try reflexivity; lia.
      + split; [exact Lq|]. intros j Hj. rewrite Gq by exact Hj. destruct (N.eqb_spec j (N.of_nat n)) as [->|Nj].
        * replace (N.of_nat n <? N.of_nat n) with false by (symmetry; apply N.ltb_irrefl).
          replace (N.of_nat n <? N.of_nat (S n)) with true by (symmetry; apply N.ltb_lt; lia). rewrite Eb, xorb_false_r. reflexivity.
        * replace (j <? N.of_nat (S n)) with (j <? N.of_nat n); [reflexivity|].
          destruct (N.ltb_spec j (N.of_nat n)), (N.ltb_spec j (N.of_nat (S n))); try reflexivity; lia. }
  apply (G 6%nat). lia.
Qed.
Lemma parities6_spec v : length (parities6 v) = 7%nat /\ forall j, j < 6 -> lget (parities6 v) j = b2n (N.testbit (code v) j).
Proof.
  assert (G : forall n, (n <= 32)%nat -> let q := for_up n 0 (fun i p => if N.testbit v i then inner i p else p) (repeat 0 7) in
    length q = 7%nat /\ forall j, j < 7 -> lget q j = b2n (if j <? 6 then N.testbit (code_n n v) j else false)).
  { induction n as [|n IH]; cbv zeta in *; intros Hn.
    - split; [reflexivity|]. intros j Hj. cbn [for_up]. change (code_n 0 v) with 0. rewrite N.bits_0.
      assert (C : j = 0 \/ j = 1 \/ j = 2 \/ j = 3 \/ j = 4 \/ j = 5 \/ j = 6) by lia.
      destruct C as [->|[->|[->|[->|[->|[->| ->]]]]]]; reflexivity.
    - rewrite for_up_snoc, code_S. set (q := for_up n 0 _ (repeat 0 7)) in *. destruct (IH ltac:(lia)) as [Lq Gq]. replace (0 + N.of_nat n) with (N.of_nat n) by lia.
      destruct (N.testbit v (N.of_nat n)); [|split; assumption].
      destruct (inner_spec (N.of_nat n) q _ Lq Gq) as [L2 G2]. split; [exact L2|]. intros j Hj. rewrite (G2 j Hj).
      destruct (j <? 6); [|reflexivity]. rewrite N.lxor_spec. reflexivity. }
  destruct (G 32%nat (le_n _)) as [L H]. split; [exact L|]. intros j Hj. unfold parities6.
  etransitivity; [apply (H j); lia|]. destruct (N.ltb_spec j 6); [|lia]. unfold code. reflexivity.
Qed.
Lemma par6_def s : for_up 6 0 (fun j b => xorb b (N.testbit s j)) false = par6 s.
Proof. reflexivity. Qed.
Lemma code_def v : code_n 32 v = code v.
Proof. unfold code. reflexivity. Qed.
Lemma par_def v : par_n 32 v = par v.
Proof. unfold par. reflexivity. Qed.
Lemma code_lin v e : code (N.lxor v e) = N.lxor (code v) (code e).
Proof. unfold code. apply code_xor. Qed.
Lemma par_lin v e : par (N.lxor v e) = xorb (par v) (par e).
Proof. unfold par. apply par_xor. Qed.
Global Opaque code par par6.
Lemma stage1 v p0 : length p0 = 7%nat -> (forall j, j < 6 -> lget p0 j = b2n (N.testbit (code v) j)) -> lget p0 6 = b2n false ->
  forall n, (n <= 6)%nat ->
    length (for_up n 0 (fun i p => lxorat p 6 (lget p i)) p0) = 7%nat /\
    (forall j, j < 6 -> lget (for_up n 0 (fun i p => lxorat p 6 (lget p i)) p0) j = b2n (N.testbit (code v) j)) /\
    lget (for_up n 0 (fun i p => lxorat p 6 (lget p i)) p0) 6 = b2n (for_up n 0 (fun j b => xorb b (N.testbit (code v) j)) false).
Proof.
  intros L0 H0 H6. induction n as [|n IH]; intros Hn; [auto|]. rewrite !for_up_snoc. set (q := for_up n 0 _ p0) in *.
  destruct (IH ltac:(lia)) as (Lq & Gq & G6). replace (0 + N.of_nat n) with (N.of_nat n) by lia. split; [rewrite lxorat_length; exact Lq|]. split.
  - intros j Hj. rewrite lxorat_get by (rewrite Lq; change (N.to_nat 6) with 6%nat; lia). destruct (N.eqb_spec j 6); [lia|]. apply Gq, Hj.
  - rewrite lxorat_get by (rewrite Lq; change (N.to_nat 6) with 6%nat; lia). rewrite N.eqb_refl. rewrite G6, Gq by lia. rewrite xor_b2n, wrap8_b2n. reflexivity.
Qed.
Lemma stage2 v p1 x : length p1 = 7%nat -> (forall j, j < 6 -> lget p1 j = b2n (N.testbit (code v) j)) -> lget p1 6 = b2n x ->
  forall n, (n <= 32)%nat ->
    length (for_up n 0 (fun i p => lxorat p 6 (N.land (N.shiftr v i) 1)) p1) = 7%nat /\
    (forall j, j < 6 -> lget (for_up n 0 (fun i p => lxorat p 6 (N.land (N.shiftr v i) 1)) p1) j = b2n (N.testbit (code v) j)) /\
    lget (for_up n 0 (fun i p => lxorat p 6 (N.land (N.shiftr v i) 1)) p1) 6 = b2n (xorb x (par_n n v)).
Proof.
  intros L0 H0 H6. induction n as [|n IH]; intros Hn.
  - cbn [for_up]. change (par_n 0 v) with false. rewrite xorb_false_r. auto.
  - rewrite for_up_snoc, par_S. set (q := for_up n 0 _ p1) in *.
    destruct (IH ltac:(lia)) as (Lq & Gq & G6). replace (0 + N.of_nat n) with (N.of_nat n) by lia. split; [rewrite lxorat_length; exact Lq|]. split.
    + intros j Hj. rewrite lxorat_get by (rewrite Lq; change (N.to_nat 6) with 6%nat; lia). destruct (N.eqb_spec j 6); [lia|]. apply Gq, Hj.
    + rewrite lxorat_get by (rewrite Lq; change (N.to_nat 6) with 6%nat; lia). rewrite N.eqb_refl. rewrite G6, shiftr_land1, xor_b2n, wrap8_b2n, xorb_assoc. reflexivity.
Qed.
Lemma parities_unfold v : parities v = for_up 32 0 (fun i p => lxorat p 6 (N.land (N.shiftr v i) 1)) (for_up 6 0 (fun i p => lxorat p 6 (lget p i)) (lset (parities6 v) 6 0)).
Proof. unfold parities. reflexivity. Qed.
Lemma parities_spec v : length (parities v) = 7%nat /\ (forall j, j < 6 -> lget (parities v) j = b2n (N.testbit (code v) j)) /\
  lget (parities v) 6 = b2n (xorb (par6 (code v)) (par v)).
Proof.
  rewrite parities_unfold. destruct (parities6_spec v) as [L H]. generalize dependent (parities6 v). intros p L H.
  assert (L0 : length (lset p 6 0) = 7%nat) by (rewrite lset_length; exact L).
  assert (H0 : forall j, j < 6 -> lget (lset p 6 0) j = b2n (N.testbit (code v) j)).
  { intros j Hj. unfold lget. rewrite lset_nth by lia. destruct (Nat.eqb_spec (N.to_nat j) 6); [lia|]. apply H, Hj. }
  assert (H6 : lget (lset p 6 0) 6 = b2n false) by (unfold lget; rewrite lset_nth by lia; reflexivity).
  destruct (stage1 v _ L0 H0 H6 6%nat (le_n _)) as (L1 & H1 & H61). rewrite par6_def in H61.
  generalize dependent (for_up 6 0 (fun i p => lxorat p 6 (lget p i)) (lset p 6 0)). intros p1 L1 H1 H61.
  pose proof (stage2 v p1 _ L1 H1 H61 32%nat (le_n _)) as G. rewrite par_def in G. exact G.
Qed.

Definition overall_of (v : N) : bool := xorb (par6 (code v)) (par v).
(** compared with the current value's parities, the first seven check bytes act like the six bits of c and the bit b *)
Definition holds (s : mbp) (c : N) (b : bool) : Prop :=
  c < 64 /\
  (forall j, j < 6 -> (b2n (N.testbit (code (value_ s)) j) =? lget (ecc_data_ s) j) = Bool.eqb (N.testbit (code (value_ s)) j) (N.testbit c j)) /\
  (b2n (overall_of (value_ s)) =? lget (ecc_data_ s) 6) = Bool.eqb (overall_of (value_ s)) b.
Lemma syndrome_spec s c b : holds s c b -> syndrome s = N.lxor (code (value_ s)) c.
Proof.
  intros (Hc & H & _). unfold syndrome. destruct (parities6_spec (value_ s)) as [_ P].
  assert (G : forall n, (n <= 6)%nat -> forall j,
    N.testbit (for_up n 0 (fun i sy => if lget (parities6 (value_ s)) i =? lget (ecc_data_ s) i then sy else N.lor sy (N.shiftl 1 i)) 0) j =
    (j <? N.of_nat n) && xorb (N.testbit (code (value_ s)) j) (N.testbit c j)).
  { induction n as [|n IH]; intros Hn j.
    - cbn [for_up]. rewrite N.bits_0. replace (j <? N.of_nat 0) with false by (symmetry; apply N.ltb_ge; lia). reflexivity.
    - rewrite for_up_snoc. replace (0 + N.of_nat n) with (N.of_nat n) by lia. rewrite P, H by lia.
      set (x := for_up n 0 _ 0) in *.
      assert (E : N.testbit (if Bool.eqb (N.testbit (code (value_ s)) (N.of_nat n)) (N.testbit c (N.of_nat n)) then x else N.lor x (N.shiftl 1 (N.of_nat n))) j =
                  N.testbit x j || (xorb (N.testbit (code (value_ s)) (N.of_nat n)) (N.testbit c (N.of_nat n)) && (j =? N.of_nat n))).
      { destruct (N.testbit (code (value_ s)) (N.of_nat n)), (N.testbit c (N.of_nat n)); cbn [Bool.eqb xorb andb]; rewrite ?orb_false_r; try reflexivity;
          rewrite N.lor_spec; change 1 with (b2n true); rewrite shiftl_b2n_testbit; reflexivity. }
      rewrite E, IH by lia. clear E IH. clearbody x. destruct (N.eqb_spec j (N.of_nat n)) as [Ej|Nj].
      + rewrite Ej. replace (N.of_nat n <? N.of_nat n) with false by (symmetry; apply N.ltb_irrefl).
        replace (N.of_nat n <? N.of_nat (S n)) with true by (symmetry; apply N.ltb_lt; lia). cbn [andb orb]. apply andb_true_r.
      + rewrite andb_false_r, orb_false_r. f_equal. destruct (N.ltb_spec j (N.of_nat n)), (N.ltb_spec j (N.of_nat (S n))); try reflexivity; lia. }
  apply N.bits_inj. intros j. rewrite (G 6%nat (le_n _)). rewrite N.lxor_spec. change (N.of_nat 6) with 6. destruct (N.ltb_spec j 6) as [Hj|Hj]; [reflexivity|].
  rewrite !(testbit_above 6); [reflexivity|exact Hc|exact Hj|apply code_lt|exact Hj].
Qed.
Lemma overall_spec s c b : holds s c b -> negb (lget (parities (value_ s)) 6 =? lget (ecc_data_ s) 6) = xorb (overall_of (value_ s)) b.
Proof.
  intros (_ & _ & H). destruct (parities_spec (value_ s)) as (_ & _ & P). rewrite P. fold (overall_of (value_ s)). rewrite H.
  destruct (overall_of (value_ s)), b; reflexivity.
Qed.
Lemma check_spec s c b : holds s c b -> checkHammingParity s = negb (N.lxor (code (value_ s)) c =? 0) || xorb (overall_of (value_ s)) b.
Proof.
  intros H. pose proof (overall_spec s c b H) as O. destruct H as (Hc & H & H6). destruct (parities_spec (value_ s)) as (_ & P & _).
  assert (E : checkHammingParity s = negb (forallb (fun i => lget (parities (value_ s)) i =? lget (ecc_data_ s) i) [0;1;2;3;4;5] && (lget (parities (value_ s)) 6 =? lget (ecc_data_ s) 6))).
  { unfold checkHammingParity. cbn [forallb]. rewrite !andb_true_r, !andb_assoc. reflexivity. }
  rewrite E, negb_andb, O. f_equal. f_equal.
  assert (F : forallb (fun i => lget (parities (value_ s)) i =? lget (ecc_data_ s) i) [0;1;2;3;4;5] =
              forallb (fun i => Bool.eqb (N.testbit (code (value_ s)) i) (N.testbit c i)) [0;1;2;3;4;5]).
  { cbn [forallb]. rewrite !P, !H by reflexivity. reflexivity. }
  rewrite F. apply eq_true_iff_eq. rewrite forallb_forall, N.eqb_eq. split.
  - intros G. apply N.lxor_eq_0_iff. apply (bits_ext_below 6); [apply code_lt|exact Hc|]. intros i Hi. apply Bool.eqb_prop, G. cbn [In]. lia.
  - intros G. apply N.lxor_eq in G. rewrite G. intros i _. apply Bool.eqb_reflx.
Qed.
Lemma ecc_generate s : ecc_data_ (generateHammingCode s) = parities (value_ s) ++ [0] ++ skipn 8 (ecc_data_ s).
Proof. reflexivity. Qed.
Lemma generated s v : value_ s = v ->
  (forall j, j < 6 -> lget (ecc_data_ (generateHammingCode s)) j = b2n (N.testbit (code v) j)) /\ lget (ecc_data_ (generateHammingCode s)) 6 = b2n (overall_of v).
Proof.
  intros E. rewrite ecc_generate, E. destruct (parities_spec v) as (Lp & P & P6). unfold overall_of. generalize dependent (parities v). intros p Lp P P6.
  unfold lget in *. split.
  - intros j Hj. rewrite app_nth1 by lia. apply P, Hj.
  - rewrite app_nth1 by (rewrite Lp; change (N.to_nat 6) with 6%nat; lia). exact P6.
Qed.

(** one error bit, two error bits *)
Lemma code_bits n v : v < 2 ^ N.of_nat n -> forall m, (n <= m)%nat -> code_n m v = code_n n v /\ par_n m v = par_n n v.
Proof.
  intros Hv. induction m as [|m IH]; intros Hm; [replace n with 0%nat by lia; auto|].
  destruct (Nat.eq_dec n (S m)) as [->|N]; [auto|]. rewrite code_S, par_S. rewrite (testbit_above (N.of_nat n)) by (try exact Hv; lia).
  rewrite xorb_false_r. apply IH. lia.
Qed.
Lemma code_pow i : i < 32 -> code (2 ^ i) = i + 1 /\ par (2 ^ i) = true.
Proof.
  intros Hi. rewrite <- code_def, <- par_def.
  destruct (code_bits (S (N.to_nat i)) (2 ^ i)) with (m := 32%nat) as [-> ->]; [apply N.pow_lt_mono_r; lia|lia|].
  rewrite code_S, par_S. rewrite N2Nat.id, pow2_bits, N.eqb_refl.
  assert (Z : forall n, (n <= N.to_nat i)%nat -> code_n n (2 ^ i) = 0 /\ par_n n (2 ^ i) = false).
  { induction n as [|n IH]; intros Hn; [auto|]. rewrite code_S, par_S, pow2_bits. destruct (N.eqb_spec (N.of_nat n) i); [lia|].
    rewrite xorb_false_r. apply IH. lia. }
  destruct (Z (N.to_nat i) (le_n _)) as [-> ->]. rewrite N.lxor_0_l. auto.
Qed.
Transparent par6.
Lemma par6_popcount s : s < 64 -> par6 s = N.odd (popcount s).
Proof.
  intros H. assert (C : forallb (fun k => Bool.eqb (par6 (N.of_nat k)) (N.odd (popcount (N.of_nat k)))) (seq 0 64) = true) by (vm_compute; reflexivity).
  rewrite forallb_forall in C. specialize (C (N.to_nat s)). rewrite N2Nat.id in C. apply Bool.eqb_prop, C, in_seq. lia.
Qed.
Global Opaque par6.
