(** The table-driven arithmetic is the field GF(2)[x]/P. *)
From Coq Require Import List NArith ZArith Bool Lia.
Import ListNotations.
From Verif Require Import Outcome Words GF_Model GF_Spec.
Local Open Scope N_scope.
Local Arguments N.add : simpl never.
Local Arguments N.mul : simpl never.
Local Arguments N.pow : simpl never.
Local Arguments N.lxor : simpl never.

(** *** xor, doubling *)
Lemma dbl_xor a b : 2 * N.lxor a b = N.lxor (2 * a) (2 * b).
Proof. rewrite <- !(N.shiftl_mul_pow2 _ 1) || idtac. rewrite !(N.mul_comm 2). change 2 with (2 ^ 1). rewrite <- !N.shiftl_mul_pow2. apply N.shiftl_lxor. Qed.
Lemma xor_lt m a b : a < 2 ^ m -> b < 2 ^ m -> N.lxor a b < 2 ^ m.
Proof.
  intros Ha Hb. apply below_of_bits. intros i Hi. rewrite N.lxor_spec, (testbit_above m a), (testbit_above m b) by assumption. reflexivity.
Qed.
Lemma xor4 a b c d : N.lxor (N.lxor a b) (N.lxor c d) = N.lxor (N.lxor a c) (N.lxor b d).
Proof. rewrite !N.lxor_assoc. f_equal. rewrite <- !N.lxor_assoc. f_equal. apply N.lxor_comm. Qed.

Lemma pmul_xor a b p : pmul (N.lxor a b) p = N.lxor (pmul a p) (pmul b p).
Proof.
  destruct p as [|p]; [reflexivity|]. cbn [pmul]. induction p as [p IH|p IH|]; cbn [pmul_pos].
  - rewrite IH, dbl_xor. apply xor4.
  - rewrite IH, dbl_xor. reflexivity.
  - reflexivity.
Qed.
Lemma pmul_dbl a p : pmul (2 * a) p = 2 * pmul a p.
Proof.
  destruct p as [|p]; [reflexivity|]. cbn [pmul]. induction p as [p IH|p IH|]; cbn [pmul_pos].
  - rewrite IH, dbl_xor. reflexivity.
  - rewrite IH. reflexivity.
  - reflexivity.
Qed.
Lemma pmul_0_l p : pmul 0 p = 0.
Proof. destruct p as [|p]; [reflexivity|]. cbn [pmul]. induction p as [p IH|p IH|]; cbn [pmul_pos]; rewrite ?IH; reflexivity. Qed.
Lemma xor_1_dbl x : N.lxor 1 (2 * x) = 1 + 2 * x.
Proof. destruct x; reflexivity. Qed.
Lemma pmul_1_l p : pmul 1 p = p.
Proof.
  destruct p as [|p]; [reflexivity|]. cbn [pmul]. induction p as [p IH|p IH|]; cbn [pmul_pos]; rewrite ?IH; reflexivity.
Qed.

(** *** congruence modulo P *)
Section Mod.
Variables (m P : N).
Definition eqv (x y : N) : Prop := exists q, N.lxor x y = pmul q P.
Lemma eqv_refl x : eqv x x.
Proof. exists 0. rewrite N.lxor_nilpotent, pmul_0_l. reflexivity. Qed.
Lemma eqv_sym x y : eqv x y -> eqv y x.
Proof. intros [q H]. exists q. rewrite N.lxor_comm. exact H. Qed.
Lemma eqv_xor x y x' y' : eqv x x' -> eqv y y' -> eqv (N.lxor x y) (N.lxor x' y').
Proof. intros [q H] [q' H']. exists (N.lxor q q'). rewrite pmul_xor, <- H, <- H'. apply xor4. Qed.
Lemma eqv_trans x y z : eqv x y -> eqv y z -> eqv x z.
Proof.
  intros [q H] [q' H']. exists (N.lxor q q'). rewrite pmul_xor, <- H, <- H', N.lxor_assoc, <- (N.lxor_assoc y y z), N.lxor_nilpotent, N.lxor_0_l. reflexivity.
Qed.
Lemma eqv_dbl x y : eqv x y -> eqv (2 * x) (2 * y).
Proof. intros [q H]. exists (2 * q). rewrite pmul_dbl, <- H, dbl_xor. reflexivity. Qed.
Lemma eqv_remainder x r : eqv x r -> r < 2 ^ m -> remainder_of m P x r.
Proof.
  intros [q H] Hr. split; [exact Hr|]. exists q. rewrite <- H, N.lxor_assoc, N.lxor_nilpotent, N.lxor_0_r. reflexivity.
Qed.

(** multiplication by x *)
Definition xt (a : N) : N := if N.testbit a (m - 1) then N.lxor (2 * a) P else 2 * a.
Hypothesis Hm : 1 <= m.
Hypothesis HP : 2 ^ m <= P < 2 ^ (m + 1).
Lemma P_top : N.testbit P m = true.
Proof.
  replace m with (N.log2 P); [apply N.bit_log2; assert (0 < 2 ^ m) by (apply N.neq_0_lt_0, N.pow_nonzero; lia); lia|].
  apply N.log2_unique; [lia|]. rewrite <- N.add_1_r. exact HP.
Qed.
Lemma xt_lt a : a < 2 ^ m -> xt a < 2 ^ m.
Proof.
  intros Ha. apply below_of_bits. intros i Hi. unfold xt.
  assert (D : N.testbit (2 * a) i = N.testbit a (i - 1)).
  { replace i with (N.succ (i - 1)) at 1 by lia. apply N.testbit_even_succ. lia. }
  destruct (N.testbit a (m - 1)) eqn:E.
  - rewrite N.lxor_spec, D. destruct (N.eq_dec i m) as [->|Hn].
    + rewrite E, P_top. reflexivity.
    + rewrite (testbit_above m a) by (exact Ha || lia). rewrite (testbit_above (m + 1) P) by lia. reflexivity.
  - rewrite D. destruct (N.eq_dec i m) as [->|Hn]; [exact E|]. apply (testbit_above m); [exact Ha|lia].
Qed.
Lemma xt_xor a b : xt (N.lxor a b) = N.lxor (xt a) (xt b).
Proof.
  unfold xt. rewrite N.lxor_spec, dbl_xor.
  destruct (N.testbit a (m - 1)), (N.testbit b (m - 1)); cbn [xorb].
  - rewrite xor4, N.lxor_nilpotent, N.lxor_0_r. reflexivity.
  - rewrite N.lxor_assoc, (N.lxor_comm (2 * b) P), <- N.lxor_assoc. reflexivity.
  - rewrite N.lxor_assoc. reflexivity.
  - reflexivity.
Qed.
Lemma xt_0 : xt 0 = 0.
Proof. unfold xt. rewrite N.bits_0. reflexivity. Qed.
Lemma xt_eqv a : eqv (xt a) (2 * a).
Proof.
  unfold xt. destruct (N.testbit a (m - 1)); [|apply eqv_refl].
  exists 1. rewrite pmul_1_l, N.lxor_comm, <- N.lxor_assoc, N.lxor_nilpotent, N.lxor_0_l. reflexivity.
Qed.

(** the product, by additions and multiplications by x *)
Fixpoint ms_pos (a : N) (b : positive) : N :=
  match b with
  | xH => a
  | xO b => xt (ms_pos a b)
  | xI b => N.lxor a (xt (ms_pos a b))
  end.
Definition ms (a b : N) : N := match b with 0 => 0 | Npos p => ms_pos a p end.
Lemma pow_pos' : 0 < 2 ^ m. Proof. apply N.neq_0_lt_0, N.pow_nonzero. lia. Qed.
Lemma ms_lt a b : a < 2 ^ m -> ms a b < 2 ^ m.
Proof.
  intros Ha. destruct b as [|p]; [apply pow_pos'|]. cbn [ms]. induction p as [p IH|p IH|]; cbn [ms_pos]; auto using xor_lt, xt_lt.
Qed.
Lemma ms_eqv a b : eqv (pmul a b) (ms a b).
Proof.
  destruct b as [|p]; [apply eqv_refl|]. cbn [ms pmul]. induction p as [p IH|p IH|]; cbn [ms_pos pmul_pos].
  - apply eqv_xor; [apply eqv_refl|]. eapply eqv_trans; [apply eqv_dbl, IH|]. apply eqv_sym, xt_eqv.
  - eapply eqv_trans; [apply eqv_dbl, IH|]. apply eqv_sym, xt_eqv.
  - apply eqv_refl.
Qed.
Lemma ms_xt a b : ms (xt a) b = xt (ms a b).
Proof.
  destruct b as [|p]; [symmetry; apply xt_0|]. cbn [ms]. induction p as [p IH|p IH|]; cbn [ms_pos].
  - rewrite IH, xt_xor. reflexivity.
  - rewrite IH. reflexivity.
  - reflexivity.
Qed.
Lemma ms_xor_l a a' b : ms (N.lxor a a') b = N.lxor (ms a b) (ms a' b).
Proof.
  destruct b as [|p]; [reflexivity|]. cbn [ms]. induction p as [p IH|p IH|]; cbn [ms_pos].
  - rewrite IH, xt_xor. apply xor4.
  - rewrite IH, xt_xor. reflexivity.
  - reflexivity.
Qed.
Lemma ms_0_l b : ms 0 b = 0.
Proof. destruct b as [|p]; [reflexivity|]. cbn [ms]. induction p as [p IH|p IH|]; cbn [ms_pos]; rewrite ?IH, ?xt_0; reflexivity. Qed.
Lemma ms_0_r a : ms a 0 = 0. Proof. reflexivity. Qed.
Lemma xt_small a : a < 2 ^ (m - 1) -> xt a = 2 * a.
Proof. intros Ha. unfold xt. rewrite (testbit_above (m - 1) a) by (exact Ha || lia). reflexivity. Qed.
Lemma half_lt b : 2 * b < 2 ^ m -> b < 2 ^ (m - 1).
Proof. intros H. replace (2 ^ m) with (2 * 2 ^ (m - 1)) in H; [lia|]. rewrite <- N.pow_succ_r'. f_equal. lia. Qed.
Lemma ms_1_l b : b < 2 ^ m -> ms 1 b = b.
Proof.
  destruct b as [|p]; [reflexivity|]. cbn [ms]. induction p as [p IH|p IH|]; cbn [ms_pos]; intros H.
  - change (N.pos p~1) with (1 + 2 * N.pos p) in *. rewrite IH by lia. rewrite xt_small by (apply half_lt; lia). apply xor_1_dbl.
  - change (N.pos p~0) with (2 * N.pos p) in *. rewrite IH by lia. apply xt_small, half_lt, H.
  - reflexivity.
Qed.
(* powers of x *)
Definition xti (k : nat) (a : N) : N := Nat.iter k xt a.
Lemma xti_lt k a : a < 2 ^ m -> xti k a < 2 ^ m.
Proof. intros Ha. induction k as [|k IH]; [exact Ha|]. apply xt_lt, IH. Qed.
Lemma xti_add j k a : xti (j + k) a = xti j (xti k a).
Proof. induction j as [|j IH]; [reflexivity|]. cbn [Nat.add]. change (xt (xti (j + k) a) = xt (xti j (xti k a))). rewrite IH. reflexivity. Qed.
Lemma xti_xor k a b : xti k (N.lxor a b) = N.lxor (xti k a) (xti k b).
Proof.
  induction k as [|k IH]; [reflexivity|]. change (xt (xti k (N.lxor a b)) = N.lxor (xt (xti k a)) (xt (xti k b))). rewrite IH. apply xt_xor.
Qed.
Lemma ms_xti k a b : ms (xti k a) b = xti k (ms a b).
Proof. induction k as [|k IH]; [reflexivity|]. change (ms (xt (xti k a)) b = xt (xti k (ms a b))). rewrite ms_xt, IH. reflexivity. Qed.
Lemma ms_pow k b : b < 2 ^ m -> ms (xti k 1) b = xti k b.
Proof. intros Hb. rewrite ms_xti, ms_1_l by exact Hb. reflexivity. Qed.
End Mod.

(** *** what the constructor's tables satisfy, as one computable check *)
Section Tables.
Variables (m P : N).
Fixpoint walk (k : nat) (x : N) (l : list N) {struct l} : bool :=
  match l with
  | [] => Nat.eqb k 0
  | e :: r => match k with O => false | S k => (e =? x) && walk k (xt m P x) r end
  end.
Definition check (T : tables) : bool :=
  let n := N.to_nat (2 ^ m) in
  (1 <=? m) && (2 ^ m <=? P) && (P <? 2 ^ (m + 1)) && (1 <? Z.of_N (field_size m) - 1)%Z && (field_size m =? 2 ^ m) && (2 ^ m <=? 65536) &&
  walk n 1 (exp_table T) && (nth (n - 1) (exp_table T) 0 =? 1) &&
  Nat.eqb (length (log_table T)) n &&
  forallb (fun a => let l := nth (N.to_nat a) (log_table T) 0 in (l <? 2 ^ m - 1) && (nth (N.to_nat l) (exp_table T) 0 =? a))
    (map N.of_nat (seq 1 (n - 1))) &&
  forallb (fun i => nth (N.to_nat (nth (N.to_nat i) (exp_table T) 0)) (log_table T) 0 =? i) (map N.of_nat (seq 0 (n - 1))).
Record gf_ok (T : tables) : Prop := mkok {
  ok_m : 1 <= m; ok_P : 2 ^ m <= P < 2 ^ (m + 1);
  ok_fs : field_size m = 2 ^ m;
  ok_order : (2 <= order m)%Z;
  ok_u16 : 2 ^ m <= 65536;
  ok_explen : length (exp_table T) = N.to_nat (2 ^ m);
  ok_loglen : length (log_table T) = N.to_nat (2 ^ m);
  ok_exp : forall i, (i < N.to_nat (2 ^ m))%nat -> nth i (exp_table T) 0 = xti m P i 1;
  ok_wrap : xti m P (N.to_nat (2 ^ m) - 1) 1 = 1;
  ok_log : forall a, a < 2 ^ m -> a <> 0 -> nth (N.to_nat a) (log_table T) 0 < 2 ^ m - 1 /\
             xti m P (N.to_nat (nth (N.to_nat a) (log_table T) 0)) 1 = a;
  ok_inj : forall i, (i < N.to_nat (2 ^ m) - 1)%nat -> nth (N.to_nat (xti m P i 1)) (log_table T) 0 = N.of_nat i
}.
Lemma check_ok T : check T = true -> gf_ok T.
Proof.
  unfold check. intros H. do 10 (apply andb_prop in H; let X := fresh "K" in destruct H as [H X]).
  apply N.leb_le in H. apply N.leb_le in K8. apply N.ltb_lt in K7. apply Z.ltb_lt in K6. apply N.eqb_eq in K5. apply N.leb_le in K4.
  set (n := N.to_nat (2 ^ m)) in *.
  assert (W : forall k x l, walk k x l = true ->
    length l = k /\ forall i, (i < k)%nat -> nth i l 0 = xti m P i x).
  { clear. intros k x l. revert k x. induction l as [|e r IH]; intros k x HH.
    - apply Nat.eqb_eq in HH. subst. split; [reflexivity|]. lia.
    - destruct k as [|k]; [discriminate|]. apply andb_prop in HH. destruct HH as [He HH]. apply N.eqb_eq in He. subst e.
      apply IH in HH. destruct HH as [L HH]. split; [cbn [length]; lia|]. intros [|i] Hi; [reflexivity|].
      cbn [nth]. rewrite HH by lia. replace (S i) with (i + 1)%nat by lia. symmetry. apply (xti_add m P i 1 x). }
  apply W in K3. destruct K3 as [L E].
  apply N.eqb_eq in K2. apply Nat.eqb_eq in K1. rewrite forallb_forall in K0, K.
  assert (Hn : (2 <= n)%nat).
  { unfold n. rewrite <- K5. lia. }
  constructor; try assumption.
  - split; assumption.
  - unfold order. lia.
  - fold n. rewrite <- E by lia. exact K2.
  - intros a Ha Hz. specialize (K0 a). cbv zeta in K0.
    assert (I : In a (map N.of_nat (seq 1 (n - 1)))).
    { apply in_map_iff. exists (N.to_nat a). split; [apply N2Nat.id|]. apply in_seq. unfold n. lia. }
    apply K0 in I. apply andb_prop in I. destruct I as [A B]. apply N.ltb_lt in A. apply N.eqb_eq in B.
    split; [exact A|]. rewrite <- E; [exact B|]. unfold n. lia.
  - intros i Hi. fold n in Hi. specialize (K (N.of_nat i)).
    assert (I : In (N.of_nat i) (map N.of_nat (seq 0 (n - 1)))) by (apply in_map, in_seq; lia).
    apply K in I. apply N.eqb_eq in I. rewrite Nat2N.id in I. rewrite E in I by lia. exact I.
Qed.
End Tables.

Lemma gf16_ok T : gf_construct GF16 = Ret T -> gf_ok 4 0x13 T.
Proof.
  assert (H : match gf_construct GF16 with Ret T => check 4 0x13 T | _ => false end = true) by (vm_compute; reflexivity).
  intros E. rewrite E in H. apply check_ok. exact H.
Qed.
Lemma gf1024_ok T : gf_construct GF1024 = Ret T -> gf_ok 10 0x409 T.
Proof.
  assert (H : match gf_construct GF1024 with Ret T => check 10 0x409 T | _ => false end = true) by (vm_compute; reflexivity).
  intros E. rewrite E in H. apply check_ok. exact H.
Qed.

(** *** the operations *)
Lemma get_ret (l : list N) i : (0 <= i < Z.of_nat (length l))%Z -> get l i = Ret (nth (Z.to_nat i) l 0).
Proof. intros H. unfold get. destruct (Z.ltb_spec i 0); [lia|]. destruct (Z.leb_spec (Z.of_nat (length l)) i); [lia|]. reflexivity. Qed.
Lemma get_ub (l : list N) i : (i < 0 \/ Z.of_nat (length l) <= i)%Z -> get l i = UB UB_array_index.
Proof. intros H. unfold get. destruct (Z.ltb_spec i 0); [reflexivity|]. destruct (Z.leb_spec (Z.of_nat (length l)) i); [reflexivity|lia]. Qed.
Section Ops.
Variables (m P : N) (T : tables).
Hypothesis OK : gf_ok m P T.
Notation ord := (N.to_nat (2 ^ m) - 1)%nat.
Notation gm := (ms m P).
Let Hm := ok_m _ _ _ OK. Let HP := ok_P _ _ _ OK.
Lemma two_lt : 3 <= 2 ^ m.
Proof. pose proof (ok_order _ _ _ OK) as H. unfold order in H. rewrite (ok_fs _ _ _ OK) in H. lia. Qed.
Lemma order_ord : order m = Z.of_nat ord.
Proof. pose proof two_lt. unfold order. rewrite (ok_fs _ _ _ OK). lia. Qed.
Lemma one_lt : 1 < 2 ^ m. Proof. pose proof two_lt. lia. Qed.
Definition lg (a : N) : nat := N.to_nat (nth (N.to_nat a) (log_table T) 0).
Definition al (k : nat) : N := xti m P k 1.
Lemma al_lt k : al k < 2 ^ m.
Proof. apply xti_lt; auto using one_lt. Qed.
Lemma al_mod k : al (k mod ord) = al k.
Proof.
  pose proof two_lt. assert (Ho : ord <> 0%nat) by lia. rewrite (Nat.div_mod k ord Ho) at 2.
  generalize (k / ord)%nat as q. intros q. induction q as [|q IH]; [rewrite Nat.mul_0_r; reflexivity|].
  replace (ord * S q + k mod ord)%nat with ((ord * q + k mod ord) + ord)%nat by lia.
  unfold al in *. rewrite xti_add, (ok_wrap _ _ _ OK). exact IH.
Qed.
Lemma lg_al a : a < 2 ^ m -> a <> 0 -> al (lg a) = a /\ (lg a < ord)%nat.
Proof.
  intros Ha Hz. destruct (ok_log _ _ _ OK a Ha Hz) as [A B]. split; [exact B|]. unfold lg. lia.
Qed.
Lemma al_nz k : al k <> 0.
Proof.
  rewrite <- al_mod. pose proof two_lt. intros E.
  assert (B : (k mod ord < ord)%nat) by (apply Nat.mod_upper_bound; lia).
  pose proof (ok_inj _ _ _ OK _ B) as I. fold (al (k mod ord)) in I. rewrite E in I. cbn [N.to_nat] in I.
  (* x = 0 would make its successors 0 *)
  assert (Z : forall j, xti m P j 0 = 0) by (induction j as [|j IH]; [reflexivity|]; change (xt m P (xti m P j 0) = 0); rewrite IH; apply xt_0).
  assert (W : al ord = 0).
  { replace ord with ((ord - k mod ord) + k mod ord)%nat by lia. unfold al in *. rewrite xti_add, E. apply Z. }
  unfold al in W. rewrite (ok_wrap _ _ _ OK) in W. discriminate.
Qed.
Lemma al_inj i j : (i < ord)%nat -> (j < ord)%nat -> al i = al j -> i = j.
Proof.
  intros Hi Hj E. pose proof (ok_inj _ _ _ OK i Hi) as A. pose proof (ok_inj _ _ _ OK j Hj) as B.
  fold (al i) in A. fold (al j) in B. rewrite E, B in A. lia.
Qed.
Lemma gm_al i j : gm (al i) (al j) = al (i + j).
Proof. unfold al. rewrite ms_pow by (auto; apply xti_lt; auto using one_lt). symmetry. apply xti_add. Qed.

Lemma expt_ret i : (0 <= i <= order m)%Z -> expt T i = Ret (al (Z.to_nat i)).
Proof.
  intros H. pose proof two_lt. rewrite order_ord in H. unfold expt. rewrite get_ret by (rewrite (ok_explen _ _ _ OK); lia).
  rewrite (ok_exp _ _ _ OK) by lia. reflexivity.
Qed.
Lemma logt_ret a : a < 2 ^ m -> logt T a = Ret (Z.of_nat (lg a)).
Proof.
  intros H. unfold logt. rewrite get_ret by (rewrite (ok_loglen _ _ _ OK); lia). cbn [obind]. unfold lg.
  replace (Z.to_nat (Z.of_N a)) with (N.to_nat a) by lia. f_equal. lia.
Qed.
Lemma logt_ub a : 2 ^ m <= a -> logt T a = UB UB_array_index.
Proof. intros H. unfold logt. rewrite get_ub by (rewrite (ok_loglen _ _ _ OK); lia). reflexivity. Qed.
Lemma expt_mod k : expt T (Z.of_nat k mod order m) = Ret (al k).
Proof.
  pose proof two_lt. rewrite expt_ret.
  - rewrite order_ord, <- Nat2Z.inj_mod, Nat2Z.id, al_mod. reflexivity.
  - pose proof (Z.mod_pos_bound (Z.of_nat k) (order m)). rewrite order_ord in *. lia.
Qed.

Lemma mul_spec a b : a < 2 ^ m -> b < 2 ^ m -> multiply m T a b = Ret (gm a b).
Proof.
  intros Ha Hb. unfold multiply. destruct (N.eqb_spec a 0) as [->|Na]; [rewrite ms_0_l; reflexivity|].
  destruct (N.eqb_spec b 0) as [->|Nb]; [reflexivity|]. cbn [orb].
  rewrite !logt_ret by assumption. cbn [obind]. rewrite <- Nat2Z.inj_add, expt_mod.
  destruct (lg_al a Ha Na) as [A _], (lg_al b Hb Nb) as [B _]. rewrite <- gm_al, A, B. reflexivity.
Qed.
Lemma mul_ub a b : a <> 0 -> b <> 0 -> 2 ^ m <= a -> multiply m T a b = UB UB_array_index.
Proof.
  intros Na Nb H. unfold multiply. destruct (N.eqb_spec a 0); [contradiction|]. destruct (N.eqb_spec b 0); [contradiction|].
  cbn [orb]. rewrite logt_ub by exact H. reflexivity.
Qed.
Lemma gm_lt a b : a < 2 ^ m -> gm a b < 2 ^ m.
Proof. apply ms_lt; auto. Qed.
Lemma gm_comm a b : a < 2 ^ m -> b < 2 ^ m -> gm a b = gm b a.
Proof.
  intros Ha Hb. destruct (N.eq_dec a 0) as [->|Na]; [apply ms_0_l|]. destruct (N.eq_dec b 0) as [->|Nb]; [symmetry; apply ms_0_l|].
  destruct (lg_al a Ha Na) as [<- _], (lg_al b Hb Nb) as [<- _]. rewrite !gm_al. f_equal. lia.
Qed.
Lemma gm_assoc a b c : a < 2 ^ m -> b < 2 ^ m -> c < 2 ^ m -> gm a (gm b c) = gm (gm a b) c.
Proof.
  intros Ha Hb Hc. destruct (N.eq_dec a 0) as [->|Na]; [rewrite !ms_0_l; reflexivity|].
  destruct (N.eq_dec b 0) as [->|Nb]; [rewrite ms_0_l, ms_0_r, ms_0_l; reflexivity|].
  destruct (N.eq_dec c 0) as [->|Nc]; [reflexivity|].
  destruct (lg_al a Ha Na) as [<- _], (lg_al b Hb Nb) as [<- _], (lg_al c Hc Nc) as [<- _]. rewrite !gm_al. f_equal. lia.
Qed.
Lemma gm_distr a b c : a < 2 ^ m -> b < 2 ^ m -> c < 2 ^ m -> gm a (N.lxor b c) = N.lxor (gm a b) (gm a c).
Proof.
  intros Ha Hb Hc. destruct (N.eq_dec a 0) as [->|Na]; [rewrite !ms_0_l; reflexivity|].
  destruct (lg_al a Ha Na) as [<- _]. unfold al. rewrite !ms_pow by (auto using xor_lt). apply xti_xor.
Qed.
Lemma gm_1 a : a < 2 ^ m -> gm 1 a = a.
Proof. apply ms_1_l; auto. Qed.
Definition inv (a : N) : N := al (ord - lg a).
Lemma gm_inv a : a < 2 ^ m -> a <> 0 -> gm a (inv a) = 1.
Proof.
  intros Ha Na. destruct (lg_al a Ha Na) as [A B]. rewrite <- A at 1. unfold inv. rewrite gm_al.
  replace (lg a + (ord - lg a))%nat with ord by lia. apply (ok_wrap _ _ _ OK).
Qed.
Lemma inverse_spec a : a < 2 ^ m -> a <> 0 -> inverse m T a = Ret (inv a).
Proof.
  intros Ha Na. unfold inverse. destruct (N.eqb_spec a 0); [contradiction|]. rewrite logt_ret by exact Ha. cbn [obind].
  destruct (lg_al a Ha Na) as [A B]. change (Z.of_N (field_size m) - 1)%Z with (order m). rewrite expt_ret by (rewrite order_ord; lia).
  unfold inv. rewrite order_ord. do 2 f_equal. lia.
Qed.
Lemma divide_spec a b : a < 2 ^ m -> b < 2 ^ m -> b <> 0 -> divide m T a b = Ret (gm a (inv b)).
Proof.
  intros Ha Hb Nb. unfold divide. destruct (N.eqb_spec b 0); [contradiction|]. destruct (N.eqb_spec a 0) as [->|Na]; [rewrite ms_0_l; reflexivity|].
  rewrite !logt_ret by assumption. cbn [obind]. destruct (lg_al a Ha Na) as [A A'], (lg_al b Hb Nb) as [B B'].
  replace (Z.of_nat (lg a) + Z.of_N (field_size m) - 1 - Z.of_nat (lg b))%Z with (Z.of_nat (lg a + (ord - lg b))).
  - rewrite expt_mod. rewrite <- A at 2. unfold inv. rewrite gm_al. reflexivity.
  - pose proof order_ord as O. unfold order in O. lia.
Qed.
Lemma laws : field_laws (fun x => x < 2 ^ m) gm inv.
Proof.
  pose proof two_lt. constructor; intros; auto using xor_lt, gm_lt, gm_comm, gm_assoc, gm_distr, gm_1, gm_inv, al_lt; try lia.
  apply al_lt.
Qed.
Lemma power_al k n : power gm (al k) n = al (k * N.to_nat n).
Proof.
  unfold power. induction n as [|n IH] using N.peano_ind; [rewrite Nat.mul_0_r; reflexivity|].
  rewrite N.iter_succ, IH, gm_al. f_equal. rewrite N2Nat.inj_succ. lia.
Qed.
Lemma pow_spec a n : a < 2 ^ m -> N.of_nat (lg a) * n < 2 ^ 32 -> pow m T a n = Ret (power gm a n).
Proof.
  intros Ha Hn. unfold pow. destruct (N.eqb_spec a 0) as [->|Na].
  { destruct (N.eqb_spec n 0) as [->|Nn]; [reflexivity|]. replace n with (N.succ (N.pred n)) by lia. unfold power. rewrite N.iter_succ, ms_0_l. reflexivity. }
  destruct (N.eqb_spec n 0) as [->|Nn]; [reflexivity|].
  rewrite logt_ret by exact Ha. cbn [obind]. rewrite (Z.mod_small _ (2 ^ 32)).
  2: { apply N2Z.inj_lt in Hn. rewrite N2Z.inj_mul, nat_N_Z in Hn. change (Z.of_N (2 ^ 32)) with (2 ^ 32)%Z in Hn. split; [apply Z.mul_nonneg_nonneg; lia|exact Hn]. }
  destruct (lg_al a Ha Na) as [A _]. replace (Z.of_nat (lg a) * Z.of_N n)%Z with (Z.of_nat (lg a * N.to_nat n)) by lia.
  rewrite expt_mod, <- power_al, A. reflexivity.
Qed.
(* with the product not reduced modulo 2^32 it would be right for every n *)
Lemma pow_al a n : a < 2 ^ m -> a <> 0 -> n <> 0 ->
  pow m T a n = Ret (al (Z.to_nat (((Z.of_nat (lg a) * Z.of_N n) mod 2 ^ 32))%Z)).
Proof.
  intros Ha Na Nn. unfold pow. destruct (N.eqb_spec a 0); [contradiction|]. destruct (N.eqb_spec n 0); [contradiction|].
  rewrite logt_ret by exact Ha. cbn [obind]. rewrite <- expt_mod. rewrite Z2Nat.id; [reflexivity|].
  apply Z.mod_pos_bound. lia.
Qed.
Lemma remainder_spec a b : a < 2 ^ m -> b < 2 ^ m -> exists r, multiply m T a b = Ret r /\ remainder_of m P (pmul a b) r.
Proof.
  intros Ha Hb. exists (gm a b). split; [apply mul_spec; assumption|]. apply eqv_remainder; [apply ms_eqv|apply gm_lt, Ha].
Qed.
End Ops.
