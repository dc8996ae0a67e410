(** AdvancedReedSolomon: encoder and decoder. *)
From Coq Require Import List NArith ZArith Bool Lia.
Import ListNotations.
From Verif Require Import Outcome Words GF_Model GF_Spec GF_Proofs GFPoly_Proofs.
Local Open Scope N_scope.
Local Arguments N.add : simpl never.
Local Arguments N.mul : simpl never.
Local Arguments N.pow : simpl never.
Local Arguments N.lxor : simpl never.
Local Arguments N.land : simpl never.
Local Arguments N.lor : simpl never.
Local Arguments N.shiftl : simpl never.
Local Arguments N.shiftr : simpl never.

Lemma loop_ub {A} (Q : Z -> A -> Prop) body u : forall n i a k, Q i a -> (i <= k < i + Z.of_nat n)%Z ->
  (forall j x, (i <= j < k)%Z -> Q j x -> exists y, body j x = Ret y /\ Q (j + 1)%Z y) ->
  (forall x, Q k x -> body k x = UB u) -> loop n i body a = UB u.
Proof.
  induction n as [|n IH]; intros i a k H Hk S U; [lia|]. cbn [loop]. destruct (Z.eq_dec i k) as [->|Ne].
  - rewrite (U a H). reflexivity.
  - destruct (S i a) as [y [E Y]]; [lia|exact H|]. rewrite E. cbn [obind]. apply (IH (i + 1)%Z y k Y); [lia| |exact U].
    intros j x Hj. apply S. lia.
Qed.

Ltac xsolve := apply N.bits_inj; intro; rewrite !N.lxor_spec;
  repeat match goal with |- context [N.testbit ?a ?i] => destruct (N.testbit a i) end; reflexivity.
Section Codec.
Variables (m P : N) (T : tables).
Hypothesis OK : gf_ok m P T.
Notation ord := (N.to_nat (2 ^ m) - 1)%nat.
Notation gm := (ms m P).
Notation al := (al m P).
Notation V := (value gm).
Notation els := (Forall (fun x : N => x < 2 ^ m)).
Notation gen := (gen m P).
Let L := laws m P T OK.
Let zero_lt := zero_lt m P T OK.
Let gmlt := gmlt m P T OK.
Let xor_lt := xor_lt.
Let al_el := al_el m P T OK.
Let V_lt := V_lt m P T OK.
Let pw_lt := pw_lt m P T OK.
Let els_nth := els_nth m P T OK.
Let gen_els := gen_els m P T OK.
Hint Resolve els_nth gen_els zero_lt gmlt xor_lt al_el V_lt pw_lt : core.

(** the second coefficient of the generator is not zero *)
Lemma gen_second n : (1 <= n)%nat -> gm (N.lxor (al 1) 1) (nth 1 (gen n) 0) = N.lxor (al n) 1.
Proof.
  intros Hn. induction n as [|n IH]; [lia|]. cbn [GFPoly_Proofs.gen]. unfold gstep.
  pose proof (gen_length m P n) as Lg. pose proof (gen_monic m P n) as Mg.
  assert (E1 : forall c g, gen n = c :: g -> nth 1 (zx (gen n ++ [0]) (0 :: map (gm (al n)) (gen n))) 0 = N.lxor (nth 1 (gen n ++ [0]) 0) (al n)).
  { intros c g E. rewrite zx_nth by (rewrite app_length; cbn; rewrite map_length; lia). f_equal. rewrite E in *. cbn in Mg. subst c. cbn [nth map].
    rewrite (gmc m P T OK) by (auto; apply (fl_one _ _ _ L)). apply (fl_unit _ _ _ L). auto. }
  destruct (gen n) as [|c g] eqn:Eg; [discriminate|]. rewrite (E1 c g eq_refl). rewrite <- Eg in *.
  assert (A1 : N.lxor (al 1) 1 < 2 ^ m) by (apply xor_lt; auto; apply (fl_one _ _ _ L)).
  assert (F : gm (N.lxor (al 1) 1) (al n) = N.lxor (al (S n)) (al n)).
  { rewrite gmdl, (gm_al m P T OK). f_equal. apply (fl_unit _ _ _ L). auto. }
  destruct n as [|n].
  - cbn [GFPoly_Proofs.gen app nth] in *. rewrite N.lxor_0_l, F. reflexivity.
  - rewrite app_nth1 by lia. rewrite (gmd m P T OK), IH, F by (auto; lia).
    rewrite (N.lxor_comm (al (S n)) 1). rewrite (N.lxor_comm (al (S (S n)))). rewrite N.lxor_assoc, <- (N.lxor_assoc (al (S n))), N.lxor_nilpotent, N.lxor_0_l.
    apply N.lxor_comm.
Qed.
Lemma gen_second_nz n : (1 <= n < ord)%nat -> nth 1 (gen n) 0 <> 0.
Proof.
  intros Hn E. pose proof (gen_second n) as G. rewrite E in G. specialize (G ltac:(lia)). rewrite gm0r in G.
  symmetry in G. apply N.lxor_eq in G. assert (X : al n = al 0) by (rewrite G; reflexivity).
  apply (al_inj m P T OK) in X; lia.
Qed.

Variables (SS n ds : N).
Hypothesis HF : field_of SS = (m, P).
Hypothesis Hn : 1 <= n.
Notation k := (N.to_nat (data_symbols SS ds)).
Notation nn := (N.to_nat n).
Notation C := (mkc T (gen nn)).

(* g_1 .. g_(n-1), 0: the generator without its leading and with its last coefficient dropped *)
Definition gt : list N := firstn (nn - 1) (tl (gen nn)) ++ [0].
Lemma gen_split : exists gn, gen nn = 1 :: firstn (nn - 1) (tl (gen nn)) ++ [gn] /\ gn <> 0.
Proof.
  pose proof (gen_length m P nn) as Lg. pose proof (gen_monic m P nn) as Mg. pose proof (gen_els nn) as Eg.
  destruct (gen nn) as [|c g] eqn:E; [discriminate|]. cbn in Mg, Lg. subst c. cbn [tl].
  assert (Lg' : length g = nn) by lia.
  destruct (@exists_last _ g) as (g' & gn & ->); [destruct g; [cbn in Lg'; lia|discriminate]|].
  rewrite app_length in Lg'. cbn in Lg'. exists gn. split.
  - rewrite firstn_app. replace (nn - 1 - length g')%nat with 0%nat by lia. rewrite firstn_O, app_nil_r, firstn_all2 by lia. reflexivity.
  - intros ->. assert (Z : V (gen nn) 0 = 0) by (rewrite E; apply (V_at_0 m P (1 :: g') 0)).
    apply (gen_value m P T OK) in Z; [|auto]. destruct Z as (i & _ & Z). symmetry in Z. exact (al_nz m P T OK i Z).
Qed.
Lemma gt_length : length gt = nn.
Proof.
  unfold gt. rewrite app_length, firstn_length. pose proof (gen_length m P nn) as Lg. destruct (gen nn); [discriminate|]. cbn in *. lia.
Qed.
Lemma gt_els : els gt.
Proof.
  unfold gt. apply Forall_app. split; [|auto]. pose proof (gen_els nn) as Eg. destruct (gen nn) as [|c g]; [cbn [tl]; rewrite firstn_nil; constructor|]. cbn [tl].
  inversion Eg as [|? ? _ Eg']; subst. apply Forall_forall. intros x Hx. rewrite Forall_forall in Eg'. apply Eg'.
  rewrite <- (firstn_skipn (nn - 1) g). apply in_or_app. auto.
Qed.
Lemma gt_nth j : (1 <= j < nn)%nat -> nth (j - 1) gt 0 = nth j (gen nn) 0.
Proof.
  intros Hj. destruct gen_split as (gn & E & _). rewrite E at 1. unfold gt.
  replace j with (S (j - 1)) at 2 by lia. cbn [nth]. pose proof gt_length as Lt. unfold gt in Lt. rewrite app_length in Lt. cbn in Lt.
  rewrite !app_nth1 by lia. reflexivity.
Qed.
Definition gp : list N := 1 :: gt.
Lemma gp_value i : (i < nn)%nat -> V gp (al i) <> 0.
Proof.
  intros Hi. destruct gen_split as (gn & E & Hgn). assert (Z : V (gen nn) (al i) = 0) by (apply (gen_value m P T OK); eauto).
  rewrite E in Z. change (1 :: firstn (nn - 1) (tl (gen nn)) ++ [gn]) with ((1 :: firstn (nn - 1) (tl (gen nn))) ++ [gn]) in Z.
  rewrite V_snoc in Z. unfold gp, gt. change (1 :: firstn (nn - 1) (tl (gen nn)) ++ [0]) with ((1 :: firstn (nn - 1) (tl (gen nn))) ++ [0]).
  rewrite V_snoc, N.lxor_0_r. apply N.lxor_eq in Z. rewrite Z. exact Hgn.
Qed.
Lemma gp_split x : x < 2 ^ m -> V gp x = N.lxor (pw m P x nn) (V gt x).
Proof.
  intros Hx. unfold gp. change (1 :: gt) with ([1] ++ gt).
  assert (E1 : els [1]) by (constructor; [apply (fl_one _ _ _ L)|constructor]).
  rewrite (V_app m P T OK [1] gt x E1 gt_els Hx). f_equal.
  change (V [1] x) with (N.lxor (gm 0 x) 1). rewrite gm0, N.lxor_0_l, gt_length. apply (fl_unit _ _ _ L). auto.
Qed.

(** one step of the encoder *)
Definition estep (r : list N) (fb : N) : list N := zx (tl r ++ [0]) (map (gm fb) gt).
Lemma estep_length r fb : length r = nn -> length (estep r fb) = nn.
Proof. intros Hr. unfold estep. rewrite zx_length; rewrite app_length; [destruct r; cbn in *; lia|rewrite map_length, gt_length; destruct r; cbn in *; lia]. Qed.
Lemma tl_els (r : list N) : els r -> els (tl r).
Proof. intros [|x l _ H]; [constructor|exact H]. Qed.
Lemma estep_els r fb : els r -> fb < 2 ^ m -> els (estep r fb).
Proof. intros Hr Hf. apply zx_els; [apply Forall_app; split; [apply tl_els, Hr|auto]|]. apply (map_els m P T OK); auto using gt_els. Qed.
Lemma estep_nth r fb j : length r = nn -> (j < nn)%nat -> nth j (estep r fb) 0 = N.lxor (nth (S j) r 0) (gm fb (nth j gt 0)).
Proof.
  intros Hr Hj. unfold estep. rewrite zx_nth by (rewrite app_length, map_length, gt_length; destruct r; cbn in *; lia).
  f_equal.
  - destruct r as [|x r]; [cbn in Hr; lia|]. cbn [tl nth length] in *. destruct (Nat.lt_ge_cases j (length r)).
    + rewrite app_nth1 by lia. reflexivity.
    + rewrite app_nth2 by lia. rewrite (nth_overflow r) by lia. replace (j - length r)%nat with 0%nat by lia. reflexivity.
  - change 0 with (gm fb 0) at 1. rewrite map_nth. reflexivity.
Qed.
Lemma estep_value r fb x : els r -> length r = nn -> fb < 2 ^ m -> x < 2 ^ m ->
  V (estep r fb) x = N.lxor (N.lxor (gm (V r x) x) (gm (hd 0 r) (pw m P x nn))) (gm fb (V gt x)).
Proof.
  intros Er Lr Hf Hx. unfold estep. rewrite V_zx by (rewrite app_length, map_length, gt_length; destruct r; cbn in *; lia).
  rewrite (V_map m P T OK) by auto using gt_els. f_equal.
  rewrite V_snoc, N.lxor_0_r. destruct r as [|c r]; [cbn in Lr; lia|]. cbn [tl hd]. inversion Er as [|? ? Hc Er']; subst.
  assert (A : V (c :: r) x = N.lxor (gm c (pw m P x (length r))) (V r x)).
  { change (c :: r) with ([c] ++ r). assert (E1 : els [c]) by auto. rewrite (V_app m P T OK [c] r x E1 Er' Hx). f_equal.
    unfold value. cbn [fold_left]. rewrite gm0, N.lxor_0_l. reflexivity. }
  rewrite A, gmdl. cbn [length] in Lr. rewrite <- Lr. rewrite (pw_S m P T OK) by exact Hx.
  rewrite <- (gma m P T OK c) by auto. rewrite (gmc m P T OK (pw m P x (length r)) x) by auto.
  rewrite N.lxor_comm, <- N.lxor_assoc, N.lxor_nilpotent, N.lxor_0_l. reflexivity.
Qed.

Lemma ecc_step_spec msg i r : (0 <= i < Z.of_nat (length msg))%Z -> nth (Z.to_nat i) msg 0 < 2 ^ m -> els r -> length r = nn ->
  ecc_step SS n C msg i r = Ret (estep r (N.lxor (nth (Z.to_nat i) msg 0) (hd 0 r))).
Proof.
  intros Hi Hmi Er Lr. unfold ecc_step. rewrite get_ret by exact Hi. cbn [obind]. rewrite get_ret by lia. cbn [obind].
  set (mi := nth (Z.to_nat i) msg 0) in *. change (nth (Z.to_nat 0) r 0) with (nth 0 r 0).
  replace (nth 0 r 0) with (hd 0 r) by (destruct r; reflexivity). unfold add.
  assert (Hh : hd 0 r < 2 ^ m) by (destruct Er; cbn; auto).
  set (fb := N.lxor mi (hd 0 r)). assert (Hf : fb < 2 ^ m) by (apply xor_lt; auto).
  destruct (N.eqb_spec fb 0) as [Z|NZ].
  - destruct (loop_inv (fun j l => length l = nn /\ forall q, nth q l 0 = if (Z.of_nat q <? j)%Z then nth (S q) r 0 else nth q r 0)
        (fun j r => obind (get r (j + 1)) (fun x => put r j x)) (nn - 1) 0%Z r) as (r' & Er' & Lr' & Nr').
    + split; [exact Lr|]. intros q. destruct (Z.ltb_spec (Z.of_nat q) 0); [lia|reflexivity].
    + intros j l Hj [Ll Nl]. rewrite get_ret by lia. cbn [obind]. rewrite put_ret by lia. eexists. split; [reflexivity|].
      rewrite upd_length. split; [exact Ll|]. intros q. rewrite upd_nth by lia. destruct (Nat.eqb_spec q (Z.to_nat j)) as [->|Nq].
      * destruct (Z.ltb_spec (Z.of_nat (Z.to_nat j)) (j + 1)); [|lia]. rewrite Nl. destruct (Z.ltb_spec (Z.of_nat (Z.to_nat (j + 1))) j); [lia|].
        f_equal. lia.
      * rewrite Nl. destruct (Z.ltb_spec (Z.of_nat q) j), (Z.ltb_spec (Z.of_nat q) (j + 1)); try lia; reflexivity.
    + rewrite Er'. cbn [obind]. rewrite put_ret by lia. f_equal. apply (nth_ext _ _ 0 0); [rewrite upd_length, estep_length by exact Lr; exact Lr'|].
      rewrite upd_length, Lr'. intros q Hq. rewrite upd_nth by lia. rewrite estep_nth by assumption. rewrite Z, gm0, N.lxor_0_r.
      destruct (Nat.eqb_spec q (Z.to_nat (Z.of_N n - 1))) as [->|Nq].
      * rewrite nth_overflow by lia. reflexivity.
      * rewrite Nr'. destruct (Z.ltb_spec (Z.of_nat q) (0 + Z.of_nat (nn - 1))); [reflexivity|lia].
  - pose proof (gen_length m P nn) as Lg.
    match goal with |- context [loop (nn - 1) 1 ?b r] => set (body := b) end.
    destruct (loop_inv (fun j l => length l = nn /\ forall q, nth q l 0 = if (Z.of_nat q <? j - 1)%Z then nth q (estep r fb) 0 else nth q r 0)
        body (nn - 1) 1%Z r) as (r' & Er' & Lr' & Nr').
    + split; [exact Lr|]. intros q. destruct (Z.ltb_spec (Z.of_nat q) (1 - 1)); [lia|reflexivity].
    + intros j l Hj [Ll Nl]. unfold body. rewrite get_ret by lia. cbn [obind]. cbn [generator_poly]. unfold size.
      destruct (Z.ltb_spec j (Z.of_nat (length (gen nn)))); [|lia].
      rewrite get_ret by lia. cbn [obind]. unfold fmul. rewrite HF. cbn [fst ctab].
      rewrite (mul_spec m P T OK) by auto. cbn [obind].
      rewrite put_ret by lia. eexists. split; [reflexivity|]. rewrite upd_length. split; [exact Ll|]. intros q. rewrite upd_nth by lia.
      replace (j + 1 - 1)%Z with j by lia. destruct (Nat.eqb_spec q (Z.to_nat (j - 1))) as [->|Nq].
      * destruct (Z.ltb_spec (Z.of_nat (Z.to_nat (j - 1))) j); [|lia]. rewrite Nl. destruct (Z.ltb_spec (Z.of_nat (Z.to_nat j)) (j - 1)); [lia|].
        rewrite estep_nth by lia. unfold add. replace (S (Z.to_nat (j - 1))) with (Z.to_nat j) by lia. f_equal. f_equal.
        rewrite <- (gt_nth (Z.to_nat j)) by lia. f_equal. lia.
      * rewrite Nl. destruct (Z.ltb_spec (Z.of_nat q) (j - 1)), (Z.ltb_spec (Z.of_nat q) j); try lia; reflexivity.
    + rewrite Er'. cbn [obind generator_poly]. unfold size. rewrite Lg. destruct (Z.ltb_spec (Z.of_N n) (Z.of_nat (S nn))); [|lia].
      rewrite put_ret by lia. f_equal. apply (nth_ext _ _ 0 0); [rewrite upd_length, estep_length by exact Lr; exact Lr'|].
      rewrite upd_length, Lr'. intros q Hq. rewrite upd_nth by lia. destruct (Nat.eqb_spec q (Z.to_nat (Z.of_N n - 1))) as [->|Nq].
      * rewrite estep_nth by lia. rewrite nth_overflow by lia. rewrite N.lxor_0_l. pose proof gt_length as Lt. unfold gt in *.
        rewrite app_length in Lt. cbn [length] in Lt. rewrite app_nth2 by lia.
        replace (Z.to_nat (Z.of_N n - 1) - length (firstn (nn - 1) (tl (gen nn))))%nat with 0%nat by lia. cbn [nth]. reflexivity.
      * rewrite Nr'. destruct (Z.ltb_spec (Z.of_nat q) (1 + Z.of_nat (nn - 1) - 1)); [reflexivity|lia].
Qed.

(** the codeword is a multiple of x^n + g_1 x^(n-1) + ... + g_(n-1) x *)
Lemma ecc_spec d msg : els d -> length d = k -> msg = d ++ repeat 0 nn ->
  exists r f, compute_ecc_symbols SS n ds C msg = Ret r /\ els r /\ length r = nn /\ els f /\ length f = k /\
    (forall x, x < 2 ^ m -> V (d ++ r) x = gm (V f x) (V gp x)) /\ (Forall (eq 0) f -> Forall (eq 0) d) /\ (Forall (eq 0) d -> Forall (eq 0) r).
Proof.
  intros Ed Ld ->. unfold compute_ecc_symbols.
  destruct (loop_inv (fun i r => exists f, els r /\ length r = nn /\ els f /\ length f = Z.to_nat i /\
      (forall x, x < 2 ^ m -> N.lxor (gm (V (firstn (Z.to_nat i) d) x) (pw m P x nn)) (V r x) = gm (V f x) (V gp x)) /\
      (Forall (eq 0) f -> Forall (eq 0) (firstn (Z.to_nat i) d) /\ Forall (eq 0) r) /\
      (Forall (eq 0) (firstn (Z.to_nat i) d) -> Forall (eq 0) r))
    (ecc_step SS n C (d ++ repeat 0 nn)) k 0%Z (repeat 0 nn)) as (r & Er & f & E1 & E2 & E3 & E4 & E5 & E6 & E7).
  - exists []. assert (Zr : Forall (eq 0) (repeat 0 nn)) by (apply Forall_forall; intros x Hx; apply repeat_spec in Hx; auto).
    assert (V0 : forall j x, V (repeat 0 j) x = 0).
    { intros j x. induction j as [|j IH]; [reflexivity|]. cbn [repeat]. rewrite V_zero_cons. exact IH. }
    repeat split; auto; try (cbn; auto; fail).
    + apply Forall_forall. intros x Hx. apply repeat_spec in Hx. subst. auto.
    + apply repeat_length.
    + intros x Hx. change (V (firstn (Z.to_nat 0) d) x) with 0. change (V [] x) with 0. rewrite !gm0, N.lxor_0_l. apply V0.
  - intros i r Hi (f & E1 & E2 & E3 & E4 & E5 & E6 & E7).
    assert (Hd : nth (Z.to_nat i) (d ++ repeat 0 nn) 0 = nth (Z.to_nat i) d 0) by (apply app_nth1; lia).
    assert (Hmi : nth (Z.to_nat i) d 0 < 2 ^ m) by (auto).
    rewrite ecc_step_spec; [|rewrite app_length; lia|rewrite Hd; exact Hmi|assumption|assumption]. rewrite Hd.
    set (mi := nth (Z.to_nat i) d 0) in *. set (fb := N.lxor mi (hd 0 r)).
    assert (Hh : hd 0 r < 2 ^ m) by (destruct E1; cbn; auto).
    assert (Hf : fb < 2 ^ m) by (apply xor_lt; auto).
    assert (Fn : firstn (Z.to_nat (i + 1)) d = firstn (Z.to_nat i) d ++ [mi]).
    { replace (Z.to_nat (i + 1)) with (S (Z.to_nat i)) by lia. unfold mi.
      assert (Hl : (Z.to_nat i < length d)%nat) by lia. revert Hl. generalize (Z.to_nat i) as q. clear. intros q. revert d.
      induction q as [|q IH]; intros [|x d] H; cbn in *; try lia; [reflexivity|]. f_equal. apply IH. lia. }
    assert (Zst : forall r0, Forall (eq 0) r0 -> length r0 = nn -> Forall (eq 0) (estep r0 0)).
    { intros r0 Z0 Lr0. apply Forall_forall. intros x Hx. apply (In_nth _ _ 0) in Hx. destruct Hx as (q & Hq & <-).
      rewrite estep_length in Hq by exact Lr0. rewrite estep_nth by assumption. rewrite gm0, N.lxor_0_r. rewrite Forall_forall in Z0.
      destruct (Nat.lt_ge_cases (S q) (length r0)); [apply Z0, nth_In; lia|rewrite nth_overflow by lia; reflexivity]. }
    eexists. split; [reflexivity|]. exists (f ++ [fb]).
    assert (Hz : Forall (eq 0) r -> hd 0 r = 0) by (intros Z; destruct Z; auto).
    repeat split.
    + apply estep_els; auto.
    + apply estep_length; auto.
    + apply Forall_app. auto.
    + rewrite app_length. cbn. lia.
    + intros x Hx. rewrite Fn, !V_snoc, estep_value by auto.
      assert (Ef : els (firstn (Z.to_nat i) d)) by (apply Forall_forall; intros y Hy; rewrite Forall_forall in Ed; apply Ed; rewrite <- (firstn_skipn (Z.to_nat i) d); apply in_or_app; auto).
      set (D := V (firstn (Z.to_nat i) d) x) in *. assert (HD : D < 2 ^ m) by (apply V_lt; auto).
      set (pn := pw m P x nn) in *. assert (Hpn : pn < 2 ^ m) by (apply pw_lt; auto).
      specialize (E5 x Hx). set (R := V r x) in *. assert (HR : R < 2 ^ m) by (apply V_lt; auto).
      set (F := V f x) in *. assert (HFF : F < 2 ^ m) by (apply V_lt; auto).
      rewrite !gmdl. rewrite gp_split in * by exact Hx. fold pn in E5 |- *. set (G := V gt x) in *.
      assert (HG : G < 2 ^ m) by (apply V_lt; auto using gt_els).
      (* F x gp = x (D x^n + R) *)
      assert (Q : gm (gm F x) (N.lxor pn G) = N.lxor (gm (gm D x) pn) (gm R x)).
      { rewrite <- (gma m P T OK F) by auto. rewrite (gmc m P T OK x) by auto. rewrite (gma m P T OK F) by auto. rewrite <- E5, gmdl. f_equal.
        rewrite <- !(gma m P T OK D) by auto. f_equal. apply (gmc m P T OK); auto. }
      rewrite Q. rewrite (gmd m P T OK fb) by auto.
      replace (gm fb pn) with (N.lxor (gm mi pn) (gm (hd 0 r) pn)) by (symmetry; apply gmdl). xsolve.
    + apply Forall_app in H. destruct H as [Zf Zb]. inversion Zb as [|? ? Zb' _]; subst. destruct (E6 Zf) as [Zd Zr].
      rewrite Fn. apply Forall_app. split; [exact Zd|]. constructor; [|constructor]. unfold fb in Zb'. rewrite (Hz Zr), N.lxor_0_r in Zb'. exact Zb'.
    + apply Forall_app in H. destruct H as [Zf Zb]. inversion Zb as [|? ? Zb' _]; subst. destruct (E6 Zf) as [Zd Zr]. rewrite <- Zb'. apply Zst; assumption.
    + intros H. rewrite Fn in H. apply Forall_app in H. destruct H as [Zd Zm]. inversion Zm as [|? ? Zm' _]; subst. specialize (E7 Zd).
      unfold fb. rewrite <- Zm', (Hz E7), N.lxor_0_r. apply Zst; assumption.
  - assert (Q : Z.to_nat (0 + Z.of_nat k) = length d) by lia. rewrite Q, firstn_all in *.
    exists r, f. repeat split; auto; try lia.
    + intros x Hx. rewrite (V_app m P T OK) by auto. rewrite E2. apply E5. exact Hx.
    + intros Z. apply E6. exact Z.
Qed.
End Codec.

(** *** bytes and symbols *)
Lemma sb_cases SS : (SS <= 8 /\ symbol_bytes SS = 1) \/ (8 < SS /\ symbol_bytes SS = 2).
Proof. unfold symbol_bytes. destruct (N.leb_spec SS 8); [left|right]; split; auto; lia. Qed.
Lemma elements_length SS j : forall b, length (elements SS j b) = j.
Proof. induction j as [|j IH]; intros b; [reflexivity|]. cbn [elements]. destruct (sb_cases SS) as [[_ ->]|[_ ->]]; cbn [length]; rewrite IH; reflexivity. Qed.
Lemma from_length SS es : length (from_elements SS es) = (length es * N.to_nat (symbol_bytes SS))%nat.
Proof.
  unfold from_elements. destruct (sb_cases SS) as [[_ ->]|[_ ->]]; induction es as [|e es IH]; cbn [flat_map app length] in *; try reflexivity; rewrite IH; lia.
Qed.
Lemma land_ff e : N.land e 0xFF = e mod 256.
Proof. change 0xFF with (N.ones 8). rewrite N.land_ones. reflexivity. Qed.
Lemma lor_add a b : a < 256 -> N.lor a (N.shiftl b 8) = a + 256 * b.
Proof.
  intros Ha. rewrite N.shiftl_mul_pow2. change (2 ^ 8) with 256. replace (a + 256 * b) with (a + b * 256) by lia.
  symmetry. assert (D : N.land a (b * 256) = 0).
  { apply N.bits_inj. intros i. rewrite N.land_spec, N.bits_0. change 256 with (2 ^ 8). destruct (N.lt_ge_cases i 8) as [H|H].
    - rewrite N.mul_pow2_bits_low by exact H. apply andb_false_r.
    - rewrite (testbit_above 8 a) by (exact Ha || exact H). reflexivity. }
  rewrite <- N.lxor_lor by exact D. apply N.add_nocarry_lxor. exact D.
Qed.
Lemma from_to SS es : Forall (fun e => e < 2 ^ (8 * symbol_bytes SS)) es -> elements SS (length es) (from_elements SS es) = es.
Proof.
  unfold from_elements. intros H. induction H as [|e es He H IH]; [reflexivity|]. cbn [length elements flat_map].
  destruct (sb_cases SS) as [[_ E]|[_ E]]; rewrite E in *; cbn [app hd tl].
  - rewrite IH. f_equal. rewrite land_ff. apply N.mod_small. exact He.
  - rewrite IH. f_equal. rewrite !land_ff, N.shiftr_div_pow2. change (2 ^ 8) with 256. change (2 ^ (8 * 2)) with 65536 in He.
    rewrite (N.mod_small (e / 256)) by (apply N.div_lt_upper_bound; lia). rewrite lor_add by (apply N.mod_lt; lia).
    pose proof (N.div_mod e 256). lia.
Qed.
Lemma to_from SS : forall j data, Forall (fun b => b < 256) data -> (length data <= j * N.to_nat (symbol_bytes SS))%nat ->
  firstn (length data) (from_elements SS (elements SS j data)) = data.
Proof.
  unfold from_elements. destruct (sb_cases SS) as [[_ E]|[_ E]]; rewrite E.
  - induction j as [|j IH]; intros data Hb Hl; [destruct data; [reflexivity|cbn in Hl; lia]|]. cbn [elements]. rewrite E. cbn [flat_map app].
    destruct Hb as [|b data Hb Hd]; [reflexivity|]. cbn [hd tl length firstn]. f_equal; [rewrite land_ff; apply N.mod_small, Hb|].
    apply IH; [exact Hd|cbn [length] in Hl; lia].
  - induction j as [|j IH]; intros data Hb Hl; [destruct data; [reflexivity|cbn in Hl; lia]|]. cbn [elements]. rewrite E. cbn [flat_map app].
    destruct Hb as [|b data Hb Hd]; [reflexivity|]. cbn [hd tl]. rewrite !land_ff, lor_add, N.shiftr_div_pow2 by exact Hb. change (2 ^ 8) with 256.
    replace ((b + 256 * hd 0 data) mod 256) with b by (rewrite N.mul_comm, N.mod_add by lia; symmetry; apply N.mod_small, Hb).
    replace ((b + 256 * hd 0 data) / 256) with (hd 0 data) by (rewrite N.mul_comm, N.div_add by lia; rewrite N.div_small by exact Hb; lia).
    cbn [length firstn]. f_equal. destruct Hd as [|c data Hc Hd]; [reflexivity|]. cbn [hd tl length firstn]. f_equal; [apply N.mod_small, Hc|].
    apply IH; [exact Hd|cbn [length] in Hl; lia].
Qed.
Lemma symbols_enough SS ds : 1 <= ds -> ds <= data_symbols SS ds * symbol_bytes SS.
Proof.
  intros H. unfold data_symbols. destruct (sb_cases SS) as [[_ ->]|[_ ->]].
  - rewrite N.mod_1_r, N.div_1_r. cbn [N.eqb]. lia.
  - pose proof (N.div_mod ds 2). pose proof (N.mod_lt ds 2). destruct (N.eqb_spec (ds mod 2) 0); lia.
Qed.

Lemma nodup_map {A B} (f : A -> B) l : NoDup l -> (forall x y, In x l -> In y l -> f x = f y -> x = y) -> NoDup (map f l).
Proof.
  induction 1 as [|x l Hx Hl IH]; intros Inj; cbn; constructor.
  - intros H. apply in_map_iff in H. destruct H as (y & E & Hy). assert (y = x) by (apply Inj; cbn; auto). subst. contradiction.
  - apply IH. intros; apply Inj; cbn; auto.
Qed.
(** *** decode (encode x) *)
Section Main.
Variables (m P : N) (T : tables).
Hypothesis OK : gf_ok m P T.
Notation gm := (ms m P).
Notation V := (value gm).
Notation els := (Forall (fun x : N => x < 2 ^ m)).
Variables (SS n ds : N).
Hypothesis HF : field_of SS = (m, P).
Hypothesis Hn : 1 <= n < 255.
Hypothesis Ho : (Z.of_N n <= order m)%Z.
Hypothesis Hds : 1 <= ds.
Hypothesis Hsb : 2 ^ m <= 2 ^ (8 * symbol_bytes SS).
Notation k := (N.to_nat (data_symbols SS ds)).
Notation nn := (N.to_nat n).
Notation C := (mkc T (gen m P nn)).
Lemma construct_spec : gf_construct (field_of SS) = Ret T -> rs_construct SS n = Ret C.
Proof. intros E. unfold rs_construct. rewrite E. cbn [obind]. rewrite HF. cbn [fst]. rewrite (generator_spec m P T OK) by lia. reflexivity. Qed.

Lemma decode_spec enc : (N.to_nat ((data_symbols SS ds + n) * symbol_bytes SS) <= length enc)%nat ->
  els (elements SS (k + nn) enc) ->
  ((forall i, (1 <= i <= nn)%nat -> V (elements SS (k + nn) enc) (al m P i) = 0) /\
   decode SS n ds C enc = Ret (Some (to_data SS ds (firstn k (elements SS (k + nn) enc))))) \/
  (~ (forall i, (1 <= i <= nn)%nat -> V (elements SS (k + nn) enc) (al m P i) = 0) /\ decode SS n ds C enc = UB UB_array_index).
Proof.
  intros Le He. unfold decode, total_symbols. destruct (Z.ltb_spec (Z.of_nat (length enc)) (Z.of_N ((data_symbols SS ds + n) * symbol_bytes SS))); [lia|].
  replace (N.to_nat (data_symbols SS ds + n)) with (k + nn)%nat by lia. rewrite HF. cbn [fst ctab].
  destruct (correct_errors_spec m P T OK (elements SS (k + nn) enc) n He Ho) as [[A B]|[A B]]; [lia|left|right]; (split; [exact A|]); rewrite B; reflexivity.
Qed.

Lemma correctable_spec enc : (N.to_nat ((data_symbols SS ds + n) * symbol_bytes SS) <= length enc)%nat ->
  els (elements SS (k + nn) enc) ->
  is_correctable SS n ds C enc = Ret true \/ is_correctable SS n ds C enc = UB UB_array_index.
Proof.
  intros Le He. unfold is_correctable, total_symbols. destruct (Z.ltb_spec (Z.of_nat (length enc)) (Z.of_N ((data_symbols SS ds + n) * symbol_bytes SS))); [lia|].
  replace (N.to_nat (data_symbols SS ds + n)) with (k + nn)%nat by lia. rewrite HF. cbn [fst ctab].
  rewrite (syndromes_spec m P T OK) by (auto; lia). cbn [obind].
  destruct (forallb (fun s => s =? 0) (tl (synds m P (elements SS (k + nn) enc) nn))) eqn:E; [left; reflexivity|right].
  rewrite (find_locator_ub m P T OK) by assumption. reflexivity.
Qed.

Theorem roundtrip data : length data = N.to_nat ds -> Forall (fun b => b < 256) data -> els (elements SS k data) ->
  exists enc, encode SS n ds C data = Ret enc /\
    (decode SS n ds C enc = Ret (Some data) \/ decode SS n ds C enc = UB UB_array_index) /\
    (Forall (eq 0) data -> decode SS n ds C enc = Ret (Some data)) /\
    (~ Forall (eq 0) data -> data_symbols SS ds < n -> decode SS n ds C enc = UB UB_array_index).
Proof.
  intros Ld Hb He. set (d := elements SS k data) in *. assert (Lk : length d = k) by apply elements_length.
  destruct (ecc_spec m P T OK SS n ds HF (proj1 Hn) d (d ++ repeat 0 nn) He Lk eq_refl) as (r & f & Er & E1 & E2 & E3 & E4 & E5 & E6 & E7).
  assert (Hdr : els (d ++ r)) by (apply Forall_app; auto).
  assert (Le : length (d ++ r) = (k + nn)%nat) by (rewrite app_length; lia).
  exists (from_elements SS (d ++ r)). split.
  { unfold encode. fold d. rewrite Er. cbn [obind]. rewrite firstn_app, Lk, Nat.sub_diag, firstn_O, app_nil_r, <- Lk, firstn_all. reflexivity. }
  assert (FT : elements SS (k + nn) (from_elements SS (d ++ r)) = d ++ r).
  { rewrite <- Le. apply from_to. eapply Forall_impl; [|exact Hdr]. cbn beta. intros x Hx. lia. }
  assert (TD : to_data SS ds (firstn k (d ++ r)) = data).
  { unfold to_data. rewrite firstn_app, Lk, Nat.sub_diag, firstn_O, app_nil_r, <- Lk, firstn_all. unfold d. rewrite <- Ld. apply to_from; [exact Hb|].
    pose proof (symbols_enough SS ds Hds). lia. }
  assert (LL : (N.to_nat ((data_symbols SS ds + n) * symbol_bytes SS) <= length (from_elements SS (d ++ r)))%nat).
  { rewrite from_length, Le. lia. }
  assert (Z1 : Forall (eq 0) data -> Forall (eq 0) d).
  { intros Z. unfold d. clear - Z. revert Z. generalize k as j. intros j. revert data. induction j as [|j IH]; intros data Z; [constructor|]. cbn [elements].
    assert (H0 : forall l, Forall (eq 0) l -> hd 0 l = 0 /\ Forall (eq 0) (tl l)) by (intros l [|? ? <- ?]; cbn; auto).
    destruct (H0 data Z) as [A B], (H0 _ B) as [A' B'].
    destruct (sb_cases SS) as [[_ ->]|[_ ->]]; constructor; auto. rewrite A, A'. reflexivity. }
  assert (Z2 : Forall (eq 0) d -> Forall (eq 0) data).
  { intros Z. rewrite <- TD. unfold to_data. rewrite firstn_app, Lk, Nat.sub_diag, firstn_O, app_nil_r, <- Lk, firstn_all.
    apply Forall_forall. intros x Hx. assert (Hx' : In x (from_elements SS d)) by (rewrite <- (firstn_skipn (N.to_nat ds)); apply in_or_app; auto).
    unfold from_elements in Hx'. apply in_flat_map in Hx'. destruct Hx' as (e & Hin & Hx'). rewrite Forall_forall in Z. rewrite <- (Z e Hin) in Hx'.
    destruct (sb_cases SS) as [[_ E]|[_ E]]; rewrite E in Hx'; cbn in Hx'; intuition. }
  pose proof (decode_spec (from_elements SS (d ++ r)) LL) as D. rewrite FT, TD in D. specialize (D Hdr).
  split; [destruct D as [[_ ->]|[_ ->]]; auto|]. split.
  - intros Z. destruct D as [[_ D]|[A _]]; [exact D|]. exfalso. apply A. intros i Hi.
    assert (V0 : forall l x, Forall (eq 0) l -> V l x = 0).
    { intros l x HZ. induction HZ as [|? l <- HZ IH]; [reflexivity|]. rewrite V_zero_cons. exact IH. }
    apply V0. apply Forall_app. auto.
  - intros NZ Hkn. destruct D as [[A _]|[_ D]]; [|exact D]. exfalso.
    assert (Nf : ~ Forall (eq 0) f) by auto.
    pose proof (roots_bound m P T OK k f (map (al m P) (seq 1 (nn - 1))) E4 E3 Nf) as RB.
    pose proof (order_ord m P T OK) as OO.
    rewrite map_length, seq_length in RB.
    assert ((nn - 1 < k)%nat); [|lia]. apply RB.
    + apply nodup_map; [apply seq_NoDup|]. intros i j Hi Hj. apply in_seq in Hi, Hj. apply (al_inj m P T OK); lia.
    + apply Forall_forall. intros x Hx. apply in_map_iff in Hx. destruct Hx as (i & <- & _). apply (al_el m P T OK).
    + intros x Hx. apply in_map_iff in Hx. destruct Hx as (i & <- & Hi). apply in_seq in Hi.
      specialize (A i). rewrite E5 in A by apply (al_el m P T OK). specialize (A ltac:(lia)).
      apply (gm_zero m P T OK) in A.
      * destruct A as [A|A]; [exact A|]. exfalso. apply (gp_value m P T OK n ltac:(lia) i); [lia|exact A].
      * apply (V_lt m P T OK); [exact E3|apply (al_el m P T OK)].
      * apply (V_lt m P T OK); [|apply (al_el m P T OK)]. constructor; [apply (one_el m P T OK)|apply (gt_els m P T OK); lia].
Qed.

(** encoding an object that contains a symbol outside the field *)
Theorem encode_ub data i : (i < k)%nat -> (2 <= n) -> (n < N.of_nat (N.to_nat (2 ^ m) - 1)) -> 2 ^ m <= nth i (elements SS k data) 0 ->
  (forall j, (j < i)%nat -> nth j (elements SS k data) 0 < 2 ^ m) -> encode SS n ds C data = UB UB_array_index.
Proof.
  intros Hi Hn2 Hno Hbad Hgood. unfold encode, compute_ecc_symbols. set (d := elements SS k data) in *. assert (Lk : length d = k) by apply elements_length.
  rewrite (loop_ub (fun _ r => els r /\ length r = nn) (ecc_step SS n C (d ++ repeat 0 nn)) UB_array_index k 0%Z (repeat 0 nn) (Z.of_nat i)); [reflexivity| |lia| |].
  - split; [|apply repeat_length]. apply Forall_forall. intros x Hx. apply repeat_spec in Hx. subst. apply (zero_lt m P T OK).
  - intros j r Hj [Er Lr]. assert (Hd : nth (Z.to_nat j) (d ++ repeat 0 nn) 0 = nth (Z.to_nat j) d 0) by (apply app_nth1; lia).
    assert (Hg : nth (Z.to_nat j) d 0 < 2 ^ m) by (apply Hgood; lia).
    assert (Hh : hd 0 r < 2 ^ m) by (destruct Er; cbn; auto; apply (zero_lt m P T OK)).
    rewrite (ecc_step_spec m P T OK SS n HF ltac:(lia)); [|rewrite app_length; lia|rewrite Hd; exact Hg|exact Er|exact Lr].
    eexists. split; [reflexivity|]. split; [apply (estep_els m P T OK); try exact Er; try lia; rewrite Hd; apply xor_lt; auto|apply (estep_length m P T OK); try exact Lr; lia].
  - intros r [Er Lr]. unfold ecc_step. rewrite get_ret by (rewrite app_length; lia). cbn [obind]. rewrite get_ret by lia. cbn [obind].
    rewrite Nat2Z.id, app_nth1 by lia. set (mi := nth i d 0) in *. change (nth (Z.to_nat 0) r 0) with (nth 0 r 0).
    assert (Hh : nth 0 r 0 < 2 ^ m) by (apply (els_nth m P T OK); exact Er). unfold add.
    assert (Big : 2 ^ m <= N.lxor mi (nth 0 r 0)).
    { apply N.nlt_ge. intros Hlt. apply (proj1 (N.lt_nge mi (2 ^ m))); [|exact Hbad].
      replace mi with (N.lxor (N.lxor mi (nth 0 r 0)) (nth 0 r 0)); [apply xor_lt; assumption|].
      rewrite N.lxor_assoc, N.lxor_nilpotent. apply N.lxor_0_r. }
    pose proof (zero_lt m P T OK) as Z0. destruct (N.eqb_spec (N.lxor mi (nth 0 r 0)) 0) as [E|NE]; [lia|].
    replace (nn - 1)%nat with (S (nn - 2)) by lia. cbn [loop]. rewrite get_ret by lia. cbn [obind generator_poly]. unfold size. pose proof (gen_length m P nn) as Lg.
    destruct (Z.ltb_spec 1 (Z.of_nat (length (gen m P nn)))); [|lia]. rewrite get_ret by lia. cbn [obind]. unfold fmul. rewrite HF. cbn [fst ctab].
    rewrite (mul_ub m P T OK); [reflexivity|exact NE| |exact Big]. apply (gen_second_nz m P T OK). lia.
Qed.
End Main.
