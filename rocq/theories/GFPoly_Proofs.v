(** Polynomials over the field; generator polynomial; Reed-Solomon syndromes, encoder and decoder. *)
From Coq Require Import List NArith ZArith Bool Lia.
Import ListNotations.
From Verif Require Import Outcome Words GF_Model GF_Spec GF_Proofs.
Local Open Scope N_scope.
Local Arguments N.add : simpl never.
Local Arguments N.mul : simpl never.
Local Arguments N.pow : simpl never.
Local Arguments N.lxor : simpl never.

(** *** loops *)
Lemma loop_inv {A} (Q : Z -> A -> Prop) body : forall n i a, Q i a ->
  (forall j x, (i <= j < i + Z.of_nat n)%Z -> Q j x -> exists y, body j x = Ret y /\ Q (j + 1)%Z y) ->
  exists r, loop n i body a = Ret r /\ Q (i + Z.of_nat n)%Z r.
Proof.
  induction n as [|n IH]; intros i a H S.
  - exists a. split; [reflexivity|]. replace (i + Z.of_nat 0)%Z with i by lia. exact H.
  - destruct (S i a) as [y [E Y]]; [lia|exact H|]. cbn [loop]. rewrite E. cbn [obind].
    destruct (IH (i + 1)%Z y Y) as [r [Er Qr]]; [intros j x Hj; apply S; lia|]. exists r. split; [exact Er|].
    replace (i + Z.of_nat (Datatypes.S n))%Z with (i + 1 + Z.of_nat n)%Z by lia. exact Qr.
Qed.
Lemma upd_length l i x : length (upd l i x) = length l.
Proof. revert i. induction l as [|h t IH]; intros [|i]; cbn; auto. Qed.
Lemma upd_nth l i x k : (i < length l)%nat -> nth k (upd l i x) 0 = if Nat.eqb k i then x else nth k l 0.
Proof.
  revert i k. induction l as [|h t IH]; intros [|i] [|k] H; cbn in *; try lia; try reflexivity.
  rewrite IH by lia. reflexivity.
Qed.
Lemma put_ret l i x : (0 <= i < Z.of_nat (length l))%Z -> put l i x = Ret (upd l (Z.to_nat i) x).
Proof. intros H. unfold put. destruct (Z.ltb_spec i 0); [lia|]. destruct (Z.leb_spec (Z.of_nat (length l)) i); [lia|]. reflexivity. Qed.

(** *** pointwise xor of coefficient lists *)
Fixpoint zx (a b : list N) : list N := match a, b with x :: a, y :: b => N.lxor x y :: zx a b | _, _ => [] end.
Lemma zx_length a b : length a = length b -> length (zx a b) = length a.
Proof. revert b. induction a as [|x a IH]; intros [|y b] H; cbn in *; try lia. rewrite IH; lia. Qed.
Lemma zx_nth a b k : length a = length b -> nth k (zx a b) 0 = N.lxor (nth k a 0) (nth k b 0).
Proof.
  revert b k. induction a as [|x a IH]; intros [|y b] [|k] H; cbn in *; try lia; try reflexivity. apply IH. lia.
Qed.

Section Poly.
Variables (m P : N) (T : tables).
Hypothesis OK : gf_ok m P T.
Notation ord := (N.to_nat (2 ^ m) - 1)%nat.
Notation gm := (ms m P).
Notation al := (al m P).
Notation el := (fun x : N => x < 2 ^ m).
Notation V := (value gm).
Notation els := (Forall (fun x : N => x < 2 ^ m)).
Let L := laws m P T OK.
Lemma zero_lt : 0 < 2 ^ m. Proof. apply (fl_zero _ _ _ L). Qed.
Hint Resolve zero_lt : core.
Lemma gmlt a b : a < 2 ^ m -> b < 2 ^ m -> gm a b < 2 ^ m. Proof. apply (fl_mul _ _ _ L). Qed.
Lemma gmc a b : a < 2 ^ m -> b < 2 ^ m -> gm a b = gm b a. Proof. apply (fl_comm _ _ _ L). Qed.
Lemma gma a b c : a < 2 ^ m -> b < 2 ^ m -> c < 2 ^ m -> gm a (gm b c) = gm (gm a b) c. Proof. apply (fl_assoc _ _ _ L). Qed.
Lemma gmd a b c : a < 2 ^ m -> b < 2 ^ m -> c < 2 ^ m -> gm a (N.lxor b c) = N.lxor (gm a b) (gm a c). Proof. apply (fl_distr _ _ _ L). Qed.
Lemma gmdl a b c : gm (N.lxor a b) c = N.lxor (gm a c) (gm b c). Proof. apply ms_xor_l. Qed.
Lemma gm0 a : gm 0 a = 0. Proof. apply ms_0_l. Qed.
Lemma gm0r a : gm a 0 = 0. Proof. reflexivity. Qed.
Lemma al_el k : al k < 2 ^ m. Proof. exact (al_lt m P T OK k). Qed.
Hint Resolve gmlt xor_lt al_el : core.
Lemma gm_zero a b : a < 2 ^ m -> b < 2 ^ m -> gm a b = 0 -> a = 0 \/ b = 0.
Proof.
  intros Ha Hb E. destruct (N.eq_dec a 0) as [|Na]; [auto|]. destruct (N.eq_dec b 0) as [|Nb]; [auto|]. exfalso.
  destruct (lg_al m P T OK a Ha Na) as [A _], (lg_al m P T OK b Hb Nb) as [B _]. rewrite <- A, <- B, (gm_al m P T OK) in E.
  exact (al_nz m P T OK _ E).
Qed.

(** *** Horner *)
Definition hv (l : list N) (x a : N) : N := fold_left (fun r c => N.lxor (gm r x) c) l a.
Lemma hv_lt l x : els l -> x < 2 ^ m -> forall a, a < 2 ^ m -> hv l x a < 2 ^ m.
Proof.
  intros Hl Hx. induction Hl as [|c l Hc Hl IH]; intros a Ha; [exact Ha|]. cbn [hv fold_left]. apply IH. auto.
Qed.
Lemma V_lt l x : els l -> x < 2 ^ m -> V l x < 2 ^ m.
Proof. intros Hl Hx. apply (hv_lt l x Hl Hx). auto. Qed.
Hint Resolve hv_lt V_lt : core.
Lemma eval_from_spec l x : els l -> x < 2 ^ m -> forall a, a < 2 ^ m -> eval_from m T l x a = Ret (hv l x a).
Proof.
  intros Hl Hx. induction Hl as [|c l Hc Hl IH]; intros a Ha; [reflexivity|]. cbn [eval_from].
  rewrite (mul_spec m P T OK) by assumption. cbn [obind]. apply IH. auto.
Qed.
Lemma eval_spec l x : els l -> x < 2 ^ m -> eval_poly m T l x = Ret (V l x).
Proof. intros Hl Hx. apply eval_from_spec; auto. Qed.
Lemma hv_app l l' x a : hv (l ++ l') x a = hv l' x (hv l x a).
Proof. apply fold_left_app. Qed.
Lemma V_snoc l c x : V (l ++ [c]) x = N.lxor (gm (V l x) x) c.
Proof. unfold value. rewrite fold_left_app. reflexivity. Qed.
Lemma V_zero_cons l x : V (0 :: l) x = V l x.
Proof. unfold value. cbn [fold_left]. rewrite gm0. reflexivity. Qed.
Lemma hv_zx x : forall l l' a a', length l = length l' -> hv (zx l l') x (N.lxor a a') = N.lxor (hv l x a) (hv l' x a').
Proof.
  induction l as [|c l IH]; intros [|c' l'] a a' H; cbn in H; try lia; [reflexivity|]. cbn [zx hv fold_left].
  change (hv (zx l l') x (N.lxor (gm (N.lxor a a') x) (N.lxor c c')) = N.lxor (hv l x (N.lxor (gm a x) c)) (hv l' x (N.lxor (gm a' x) c'))).
  rewrite <- (IH l'); [|lia]. unfold hv. f_equal. rewrite gmdl. apply xor4.
Qed.
Lemma V_zx l l' x : length l = length l' -> V (zx l l') x = N.lxor (V l x) (V l' x).
Proof. intros H. exact (hv_zx x l l' 0 0 H). Qed.
Lemma hv_map c x l : els l -> c < 2 ^ m -> x < 2 ^ m -> forall a, a < 2 ^ m -> hv (map (gm c) l) x (gm c a) = gm c (hv l x a).
Proof.
  intros Hl Hc Hx. induction Hl as [|d l Hd Hl IH]; intros a Ha; [reflexivity|]. cbn [map hv fold_left].
  fold (hv (map (gm c) l) x (N.lxor (gm (gm c a) x) (gm c d))). rewrite <- gma, <- gmd by auto. apply IH. auto.
Qed.
Lemma V_map c x l : els l -> c < 2 ^ m -> x < 2 ^ m -> V (map (gm c) l) x = gm c (V l x).
Proof. intros. unfold value. change 0 with (gm c 0) at 1. apply (hv_map c x l); auto. Qed.
(* x^n *)
Definition pw (x : N) (n : nat) : N := Nat.iter n (fun r => gm r x) 1.
Lemma one_el : 1 < 2 ^ m. Proof. apply (fl_one _ _ _ L). Qed.
Hint Resolve one_el : core.
Lemma pw_lt x n : x < 2 ^ m -> pw x n < 2 ^ m.
Proof. intros Hx. induction n as [|n IH]; cbn; auto. Qed.
Hint Resolve pw_lt : core.
Lemma pw_S x n : x < 2 ^ m -> pw x (S n) = gm x (pw x n).
Proof. intros Hx. cbn. apply gmc; auto. Qed.
Lemma hv_split x l : els l -> x < 2 ^ m -> forall a, a < 2 ^ m -> hv l x a = N.lxor (gm a (pw x (length l))) (V l x).
Proof.
  intros Hl Hx. induction Hl as [|c l Hc Hl IH]; intros a Ha.
  - change (a = N.lxor (gm a 1) 0). rewrite N.lxor_0_r, gmc by auto. symmetry. apply (fl_unit _ _ _ L). exact Ha.
  - cbn [hv fold_left length]. fold (hv l x (N.lxor (gm a x) c)). rewrite IH by auto.
    unfold value at 2. cbn [fold_left]. rewrite gm0. fold (hv l x (N.lxor 0 c)). rewrite (IH (N.lxor 0 c)) by auto. rewrite N.lxor_0_l.
    rewrite gmdl, N.lxor_assoc. f_equal. rewrite pw_S, gma by auto. reflexivity.
Qed.
Lemma V_app l l' x : els l -> els l' -> x < 2 ^ m -> V (l ++ l') x = N.lxor (gm (V l x) (pw x (length l'))) (V l' x).
Proof. intros H H' Hx. unfold value at 1. rewrite fold_left_app. fold (V l x). apply (hv_split x l' H' Hx). auto. Qed.
Lemma V_at_0 l c : V (l ++ [c]) 0 = c.
Proof. rewrite V_snoc, gm0r. apply N.lxor_0_l. Qed.

(** *** a nonzero polynomial has fewer roots than coefficients *)
Fixpoint pre (a : N) (l : list N) (r : N) : list N :=
  match l with [] => [] | c :: t => a :: pre (N.lxor (gm a r) c) t r end.
Lemma pre_length l r : forall a, length (pre a l r) = length l.
Proof. induction l as [|c l IH]; intros a; cbn; auto. Qed.
Lemma pre_els l r : els l -> r < 2 ^ m -> forall a, a < 2 ^ m -> els (pre a l r).
Proof. intros Hl Hr. induction Hl as [|c l Hc Hl IH]; intros a Ha; cbn; auto. Qed.
Lemma pre_value l x r : els l -> x < 2 ^ m -> r < 2 ^ m -> forall a b d, a < 2 ^ m -> b < 2 ^ m -> d < 2 ^ m ->
  N.lxor b a = gm d (N.lxor x r) -> N.lxor (hv l x b) (hv l r a) = gm (hv (pre a l r) x d) (N.lxor x r).
Proof.
  intros Hl Hx Hr. induction Hl as [|c l Hc Hl IH]; intros a b d Ha Hb Hd E; [exact E|]. cbn [hv fold_left pre].
  apply (IH (N.lxor (gm a r) c) (N.lxor (gm b x) c) (N.lxor (gm d x) a)); auto.
  rewrite xor4, N.lxor_nilpotent, N.lxor_0_r. rewrite gmdl.
  (* bx + ar = (b + a) x + a (x + r) *)
  rewrite (gmd a x r) by auto. replace (gm (gm d x) (N.lxor x r)) with (gm (gm d (N.lxor x r)) x).
  - rewrite <- E, gmdl. rewrite N.lxor_assoc. f_equal. rewrite <- N.lxor_assoc, N.lxor_nilpotent, N.lxor_0_l. reflexivity.
  - rewrite <- !gma by auto. f_equal. apply gmc; auto.
Qed.
Lemma pre_zero l r : els l -> r < 2 ^ m -> forall a, a < 2 ^ m -> Forall (eq 0) (pre a l r) -> hv l r a = 0 -> a = 0 /\ Forall (eq 0) l.
Proof.
  intros Hl Hr. induction Hl as [|c l Hc Hl IH]; intros a Ha Z E; [cbn in E; auto|]. cbn [pre] in Z. inversion Z as [|? ? Z1 Z2]; subst. cbn [hv fold_left] in E.
  rewrite gm0, N.lxor_0_l in *. destruct (IH c) as [-> F]; auto.
Qed.
Lemma roots_bound : forall k l rs, length l = k -> els l -> ~ Forall (eq 0) l -> NoDup rs -> els rs ->
  (forall r, In r rs -> V l r = 0) -> (length rs < k)%nat.
Proof.
  induction k as [|k IH]; intros l rs Hk Hl Nz Nd Hrs R.
  - destruct l; [|discriminate]. exfalso. apply Nz. constructor.
  - destruct rs as [|r rs]; [cbn; lia|]. destruct l as [|c l]; [discriminate|]. injection Hk as Hk.
    inversion Nd as [|? ? Nr Nd']; subst. inversion Hrs as [|? ? Hr Hrs']; subst. inversion Hl as [|? ? Hc Hl']; subst.
    assert (Rr : V (c :: l) r = 0) by (apply R; left; reflexivity).
    assert (S : forall x, x < 2 ^ m -> V (c :: l) x = gm (V (pre c l r) x) (N.lxor x r)).
    { intros x Hx. pose proof (pre_value (c :: l) x r Hl Hx Hr 0 0 0) as Q.
      change (hv (c :: l) x 0) with (V (c :: l) x) in Q. change (hv (c :: l) r 0) with (V (c :: l) r) in Q.
      specialize (Q zero_lt zero_lt zero_lt). rewrite gm0 in Q. specialize (Q eq_refl). rewrite Rr, N.lxor_0_r in Q. rewrite Q.
      cbn [pre hv fold_left]. rewrite gm0, N.lxor_0_l, gm0. rewrite N.lxor_0_l. reflexivity. }
    cbn [length]. apply -> Nat.succ_lt_mono. apply (IH (pre c l r) rs).
    + apply pre_length.
    + apply pre_els; auto.
    + intros Z. apply Nz. unfold value in Rr. cbn [fold_left] in Rr. rewrite gm0, N.lxor_0_l in Rr.
      destruct (pre_zero l r Hl' Hr c Hc Z Rr) as [-> F]. constructor; auto.
    + exact Nd'.
    + exact Hrs'.
    + intros x Hx. assert (Ex : x < 2 ^ m) by (rewrite Forall_forall in Hrs'; auto).
      pose proof (R x (or_intror Hx)) as Rx. rewrite S in Rx by exact Ex.
      apply gm_zero in Rx; [|apply V_lt; auto; apply pre_els; auto|auto]. destruct Rx as [|E]; [assumption|].
      apply N.lxor_eq in E. subst. contradiction.
Qed.

(** *** the generator polynomial *)
Definition gstep (g : list N) (i : nat) : list N := zx (g ++ [0]) (0 :: map (gm (al i)) g).
Lemma gstep_value g i x : els g -> x < 2 ^ m -> V (gstep g i) x = gm (V g x) (N.lxor x (al i)).
Proof.
  intros Hg Hx. unfold gstep. rewrite V_zx by (cbn; rewrite app_length, map_length; cbn; lia).
  rewrite V_snoc, N.lxor_0_r, V_zero_cons, V_map by auto. rewrite gmd by auto. f_equal. apply gmc; auto.
Qed.
Lemma zx_els a b : els a -> els b -> els (zx a b).
Proof. intros Ha. revert b. induction Ha as [|x a Hx Ha IH]; intros b [|y b' Hy Hb]; cbn; auto. Qed.
Lemma map_els c l : c < 2 ^ m -> els l -> els (map (gm c) l).
Proof. intros Hc Hl. induction Hl; cbn; auto. Qed.
Lemma gstep_els g i : els g -> els (gstep g i).
Proof. intros Hg. apply zx_els; [apply Forall_app; auto|]. constructor; auto. apply map_els; auto. Qed.
Fixpoint gen (n : nat) : list N := match n with O => [1] | S k => gstep (gen k) k end.
Lemma gen_els n : els (gen n).
Proof. induction n; cbn [gen]; auto using gstep_els. Qed.
Lemma gen_length n : length (gen n) = S n.
Proof.
  induction n as [|n IH]; [reflexivity|]. cbn [gen]. unfold gstep. rewrite zx_length; rewrite app_length, IH; cbn; rewrite ?map_length; lia.
Qed.
Lemma gen_monic n : hd 0 (gen n) = 1.
Proof.
  induction n as [|n IH]; [reflexivity|]. cbn [gen]. unfold gstep. pose proof (gen_length n) as Ln.
  destruct (gen n) as [|c g]; [discriminate|]. cbn in *. subst. reflexivity.
Qed.
Lemma gen_value n x : x < 2 ^ m -> V (gen n) x = 0 <-> exists i, (i < n)%nat /\ x = al i.
Proof.
  intros Hx. induction n as [|n IH].
  - cbn [gen]. unfold value. cbn [fold_left]. rewrite gm0. split; [discriminate|]. intros (i & H & _). lia.
  - cbn [gen]. rewrite gstep_value by auto using gen_els. split.
    + intros H. apply gm_zero in H; auto using gen_els. destruct H as [H|H].
      * apply IH in H. destruct H as (i & Hi & E). exists i. split; [lia|exact E].
      * apply N.lxor_eq in H. exists n. split; [lia|exact H].
    + intros (i & Hi & E). destruct (Nat.eq_dec i n) as [->|Ne].
      * subst x. rewrite N.lxor_nilpotent. reflexivity.
      * assert (G : V (gen n) x = 0) by (apply IH; exists i; split; [lia|exact E]). rewrite G. apply gm0.
Qed.
Lemma els_nth l k : els l -> nth k l 0 < 2 ^ m.
Proof. intros Hl. revert k. induction Hl as [|x l Hx Hl IH]; intros [|k]; cbn; auto. Qed.
Hint Resolve els_nth : core.
Lemma expt_al i : (0 <= i <= order m)%Z -> expt T i = Ret (al (Z.to_nat i)).
Proof. apply (expt_ret m P T OK). Qed.
Lemma generator_step g i : els g -> g <> [] -> (0 <= i <= order m)%Z ->
  loop (length g) 0 (fun j g_new =>
      obind (get g_new (j + 1)) (fun old => obind (get g j) (fun gj => obind (expt T i) (fun e =>
      obind (multiply m T gj e) (fun p => put g_new (j + 1) (add old p)))))) (g ++ [0]) = Ret (gstep g (Z.to_nat i)).
Proof.
  intros Hg Ne Hi.
  destruct (loop_inv (fun j l => length l = S (length g) /\ forall k, nth k l 0 =
              if (Z.of_nat k <=? j)%Z then nth k (gstep g (Z.to_nat i)) 0 else nth k (g ++ [0]) 0)
     (fun j g_new => obind (get g_new (j + 1)) (fun old => obind (get g j) (fun gj => obind (expt T i) (fun e =>
      obind (multiply m T gj e) (fun p => put g_new (j + 1) (add old p)))))) (length g) 0%Z (g ++ [0])) as (r & Er & Lr & Nr).
  - split; [rewrite app_length; cbn; lia|]. intros k. destruct (Z.leb_spec (Z.of_nat k) 0) as [H|H]; [|reflexivity].
    assert (k = 0%nat) by lia. subst k. unfold gstep. destruct g as [|c g]; [contradiction|]. cbn. rewrite N.lxor_0_r. reflexivity.
  - intros j l Hj [Ll Nl]. rewrite get_ret by lia. cbn [obind]. rewrite get_ret by lia. cbn [obind].
    rewrite expt_al by exact Hi. cbn [obind]. rewrite (mul_spec m P T OK) by auto. cbn [obind].
    rewrite put_ret by lia. eexists. split; [reflexivity|]. rewrite upd_length. split; [exact Ll|]. intros k.
    rewrite upd_nth by lia. destruct (Nat.eqb_spec k (Z.to_nat (j + 1))) as [->|Nk].
    + destruct (Z.leb_spec (Z.of_nat (Z.to_nat (j + 1))) (j + 1)); [|lia]. rewrite Nl.
      destruct (Z.leb_spec (Z.of_nat (Z.to_nat (j + 1))) j); [lia|].
      unfold gstep. rewrite zx_nth by (cbn; rewrite app_length, map_length; cbn; lia). unfold add. f_equal.
      replace (Z.to_nat (j + 1)) with (S (Z.to_nat j)) by lia. cbn [nth].
      change 0 with (gm (al (Z.to_nat i)) 0) at 2. rewrite map_nth. apply gmc; auto.
    + rewrite Nl. destruct (Z.leb_spec (Z.of_nat k) j), (Z.leb_spec (Z.of_nat k) (j + 1)); try lia; try reflexivity.
  - rewrite Er. f_equal. assert (Lg : length (gstep g (Z.to_nat i)) = S (length g)).
    { unfold gstep. rewrite zx_length; rewrite app_length; cbn; rewrite ?map_length; lia. }
    apply (nth_ext _ _ 0 0); [lia|]. intros k Hk. rewrite Nr. destruct (Z.leb_spec (Z.of_nat k) (0 + Z.of_nat (length g))); [reflexivity|lia].
Qed.
Lemma generator_spec n : (Z.of_N n <= order m + 1)%Z -> rs_generator_poly m T n = Ret (gen (N.to_nat n)).
Proof.
  intros Hn. unfold rs_generator_poly.
  destruct (loop_inv (fun i g => g = gen (Z.to_nat i))
     (fun i g => loop (length g) 0 (fun j g_new =>
      obind (get g_new (j + 1)) (fun old => obind (get g j) (fun gj => obind (expt T i) (fun e =>
      obind (multiply m T gj e) (fun p => put g_new (j + 1) (add old p)))))) (g ++ [0]))
     (N.to_nat n) 0%Z [1]) as (r & Er & Qr); [reflexivity| |].
  - intros i g Hi ->. rewrite generator_step.
    + eexists. split; [reflexivity|]. replace (Z.to_nat (i + 1)) with (S (Z.to_nat i)) by lia. reflexivity.
    + apply gen_els.
    + intros E. pose proof (gen_length (Z.to_nat i)) as Lg. rewrite E in Lg. discriminate.
    + lia.
  - rewrite Er, Qr. do 2 f_equal. lia.
Qed.

(** *** syndromes *)
Lemma synd_inv msg n : els msg -> (Z.of_N n <= order m)%Z -> n < 255 -> forall fuel i s,
  i <= n + 1 -> (N.to_nat (n + 1 - i) < fuel)%nat -> length s = N.to_nat (n + 1) ->
  exists r, synd_loop m T fuel msg n i s = Ret r /\ length r = N.to_nat (n + 1) /\
    forall k, (k < N.to_nat (n + 1))%nat -> nth k r 0 = if (k <? N.to_nat i)%nat then nth k s 0 else V msg (al k).
Proof.
  intros Hmsg Ho Hn. induction fuel as [|fuel IH]; intros i s Hi Hf Ls; [lia|]. cbn [synd_loop].
  destruct (N.leb_spec i n) as [Hin|Hin].
  - rewrite expt_al by lia. cbn [obind]. rewrite eval_spec by auto. cbn [obind]. rewrite put_ret by lia. cbn [obind].
    replace (wrap 8 (i + 1)) with (i + 1) by (symmetry; apply wrap_small; change (2 ^ 8) with 256; lia).
    destruct (IH (i + 1) (upd s (Z.to_nat (Z.of_N i)) (V msg (al (Z.to_nat (Z.of_N i)))))) as (r & Er & Lr & Nr); [lia|lia|rewrite upd_length; lia|].
    exists r. split; [exact Er|]. split; [exact Lr|]. intros k Hk. rewrite Nr by exact Hk. rewrite upd_nth by lia.
    destruct (Nat.ltb_spec k (N.to_nat (i + 1))), (Nat.ltb_spec k (N.to_nat i)), (Nat.eqb_spec k (Z.to_nat (Z.of_N i))); try lia; try reflexivity.
    subst k. reflexivity.
  - exists s. split; [reflexivity|]. split; [exact Ls|]. intros k Hk. destruct (Nat.ltb_spec k (N.to_nat i)); [reflexivity|lia].
Qed.
Definition synds (msg : list N) (n : nat) : list N := map (fun k => V msg (al k)) (seq 0 (S n)).
Lemma synds_nth msg n k : (k <= n)%nat -> nth k (synds msg n) 0 = V msg (al k).
Proof.
  intros Hk. unfold synds. rewrite (nth_indep _ 0 (V msg (al 0))) by (rewrite map_length, seq_length; lia).
  rewrite (map_nth (fun k => V msg (al k))). rewrite seq_nth by lia. reflexivity.
Qed.
Lemma syndromes_fuel msg n fuel : els msg -> (Z.of_N n <= order m)%Z -> n < 255 -> (N.to_nat n + 2 <= fuel)%nat ->
  rs_calc_syndromes_fuel m T fuel msg n = Ret (synds msg (N.to_nat n)).
Proof.
  intros Hmsg Ho Hn Hf. unfold rs_calc_syndromes_fuel.
  destruct (synd_inv msg n Hmsg Ho Hn fuel 0 (repeat 0 (N.to_nat n + 1))) as (r & Er & Lr & Nr); [lia|lia|rewrite repeat_length; lia|].
  rewrite Er. f_equal. apply (nth_ext _ _ 0 0); [rewrite Lr; unfold synds; rewrite map_length, seq_length; lia|].
  intros k Hk. rewrite Nr by lia. rewrite synds_nth by lia. reflexivity.
Qed.
Lemma syndromes_spec msg n : els msg -> (Z.of_N n <= order m)%Z -> n < 255 -> rs_calc_syndromes m T msg n = Ret (synds msg (N.to_nat n)).
Proof. intros. apply syndromes_fuel; auto. lia. Qed.
Lemma synd_loop_255 msg : els msg -> (255 <= order m)%Z -> forall fuel i s,
  i <= 255 -> length s = 256%nat -> synd_loop m T fuel msg 255 i s = OutOfFuel.
Proof.
  intros Hmsg Ho. induction fuel as [|fuel IH]; intros i s Hi Ls; [reflexivity|]. cbn [synd_loop].
  destruct (N.leb_spec i 255); [|lia]. rewrite expt_al by lia. cbn [obind]. rewrite eval_spec by auto. cbn [obind].
  rewrite put_ret by lia. cbn [obind]. apply IH; [|rewrite upd_length; exact Ls].
  pose proof (wrap_lt 8 (i + 1)) as W. change (2 ^ 8) with 256 in W. lia.
Qed.

(** *** the decoder: any nonzero syndrome runs off the end of err_loc *)
Lemma new_loc_ub delta old : delta < 2 ^ m -> delta <> 0 -> els old -> old <> [] ->
  loop (length (0 :: old)) 0 (fun j nl =>
     obind (get [1] j) (fun a => obind (get nl j) (fun b => obind (multiply m T delta b) (fun p => put nl j (add a p))))) (0 :: old)
  = UB UB_array_index.
Proof.
  intros Hd Nd Ho Ne. destruct old as [|c old]; [contradiction|]. cbn [length loop].
  rewrite get_ret by (cbn; lia). cbn [obind]. rewrite get_ret by (cbn [length]; lia). cbn [obind].
  rewrite (mul_spec m P T OK) by (cbn; auto). cbn [obind]. rewrite put_ret by (cbn [length]; lia). cbn [obind].
  rewrite get_ub by (cbn; lia). reflexivity.
Qed.
Lemma locator_ub s n : els s -> forall k i old, (i + Z.of_nat k = Z.of_nat n)%Z -> (0 <= i)%Z -> length s = S n ->
  els old -> old <> [] -> (exists j, (Z.to_nat i < j <= n)%nat /\ nth j s 0 <> 0) ->
  loop k i (locator_step m T s) ([1], old) = UB UB_array_index.
Proof.
  intros Hs. induction k as [|k IH]; intros i old Hk Hi Ls Ho Ne (j & Hj & Nj); [lia|]. cbn [loop]. unfold locator_step at 1.
  rewrite get_ret by lia. cbn [obind].
  match goal with |- context [loop (length [1] - 1) ?a ?f ?d] => change (loop (length [1] - 1) a f d) with (@Ret N d) end. cbn [obind].
  destruct (N.eqb_spec (nth (Z.to_nat (i + 1)) s 0) 0) as [E|E].
  - cbn [obind negb]. rewrite andb_false_r. cbn [obind]. apply IH; auto; try lia; try discriminate.
    exists j. split; [|exact Nj]. destruct (Nat.eq_dec j (Z.to_nat (i + 1))) as [->|]; [contradiction|lia].
  - rewrite (new_loc_ub _ old); auto.
Qed.
Lemma synds_els msg n : els msg -> els (synds msg n).
Proof. intros H. unfold synds. apply Forall_forall. intros x Hx. apply in_map_iff in Hx. destruct Hx as (k & <- & _). auto. Qed.
Lemma synds_tl msg n : forallb (fun s => s =? 0) (tl (synds msg n)) = true <-> forall k, (1 <= k <= n)%nat -> V msg (al k) = 0.
Proof.
  unfold synds. cbn [seq map tl]. rewrite forallb_forall. split.
  - intros H k Hk. apply N.eqb_eq, H, (in_map (fun k => V msg (al k))), in_seq. lia.
  - intros H x Hx. apply in_map_iff in Hx. destruct Hx as (k & <- & Hk). apply in_seq in Hk. apply N.eqb_eq, H. lia.
Qed.
Lemma synds_bad msg n : forallb (fun s => s =? 0) (tl (synds msg n)) = false -> exists k, (1 <= k <= n)%nat /\ nth k (synds msg n) 0 <> 0.
Proof.
  intros H. destruct (existsb (fun k => negb (V msg (al k) =? 0)) (seq 1 n)) eqn:E.
  - apply existsb_exists in E. destruct E as (k & Hk & Nk). apply in_seq in Hk. exists k. split; [lia|].
    rewrite synds_nth by lia. apply negb_true_iff, N.eqb_neq in Nk. exact Nk.
  - exfalso. rewrite <- not_true_iff_false in H. apply H, synds_tl. intros k Hk.
    rewrite <- not_true_iff_false in E. destruct (N.eq_dec (V msg (al k)) 0) as [|N]; [assumption|]. exfalso. apply E, existsb_exists.
    exists k. split; [apply in_seq; lia|]. apply negb_true_iff, N.eqb_neq. exact N.
Qed.
Lemma find_locator_ub msg n : els msg -> forallb (fun s => s =? 0) (tl (synds msg (N.to_nat n))) = false ->
  rs_find_error_locator m T (synds msg (N.to_nat n)) n = UB UB_array_index.
Proof.
  intros Hmsg E. unfold rs_find_error_locator. rewrite (locator_ub (synds msg (N.to_nat n)) (N.to_nat n)); auto using synds_els; try lia; try discriminate.
  - unfold synds. rewrite map_length, seq_length. reflexivity.
  - apply synds_bad in E. destruct E as (k & Hk & Nk). exists k. split; [lia|exact Nk].
Qed.
Lemma correct_errors_spec msg n : els msg -> (Z.of_N n <= order m)%Z -> n < 255 ->
  ((forall k, (1 <= k <= N.to_nat n)%nat -> V msg (al k) = 0) /\ rs_correct_errors m T msg n = Ret (Some msg)) \/
  (~ (forall k, (1 <= k <= N.to_nat n)%nat -> V msg (al k) = 0) /\ rs_correct_errors m T msg n = UB UB_array_index).
Proof.
  intros Hmsg Ho Hn. unfold rs_correct_errors. rewrite syndromes_spec by assumption. cbn [obind].
  destruct (forallb (fun s => s =? 0) (tl (synds msg (N.to_nat n)))) eqn:E.
  - left. split; [apply synds_tl, E|reflexivity].
  - right. split; [intros H; apply synds_tl in H; congruence|]. rewrite find_locator_ub by assumption. reflexivity.
Qed.
End Poly.
