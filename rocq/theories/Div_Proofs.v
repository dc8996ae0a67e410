(** AlgorithmicDiversity: the name order, scores and the invariant. *)
From Coq Require Import String List NArith ZArith Bool SpecFloat Reals Lia Lra Sorted Structures.OrderedTypeEx.
Import ListNotations.
From Flocq Require Import Core.
From Verif Require Import Outcome Words Arith Floats FloatsR HealthFloat BitsFloat_Proofs RMA3_Proofs Power2_Proofs Div_Model Div_Spec.

(** ** Names *)
Definition slt (a b : string) : Prop := String.compare a b = Lt.
Lemma slt_ascii a b : slt a b <-> String_as_OT.lt a b.
Proof. apply (String_as_OT.cmp_lt a b). Qed.
Lemma slt_trans a b c : slt a b -> slt b c -> slt a c.
Proof. rewrite !slt_ascii. apply String_as_OT.lt_trans. Qed.
Lemma scmp_refl a : String.compare a a = Eq.
Proof. pose proof (String.compare_antisym a a) as H. destruct (String.compare a a); try reflexivity; discriminate. Qed.
Lemma slt_irr a : ~ slt a a.
Proof. unfold slt. rewrite scmp_refl. discriminate. Qed.
Lemma scmp_gt a b : String.compare a b = Gt <-> slt b a.
Proof. unfold slt. rewrite (String.compare_antisym b a). destruct (String.compare a b); simpl; split; congruence. Qed.
Lemma seqb_refl a : String.eqb a a = true. Proof. apply String.eqb_refl. Qed.
Lemma seqb_neq a b : a <> b -> String.eqb a b = false. Proof. apply String.eqb_neq. Qed.

Definition ord (l : list impl) : Prop := StronglySorted slt (map nm l).
Lemma put_nm e l x : In x (put e l) -> x = e \/ In x l.
Proof.
  induction l as [|y r IH]; simpl; [intuition|]. destruct (String.compare (nm e) (nm y)) eqn:C; simpl; intros H; intuition.
Qed.
Lemma put_ord e l : ord l -> ord (put e l).
Proof.
  unfold ord. induction l as [|y r IH]; simpl; intros H; [repeat constructor|]. apply StronglySorted_inv in H. destruct H as [Hr Hy].
  destruct (String.compare (nm e) (nm y)) eqn:C; simpl.
  - apply String.compare_eq_iff in C. rewrite C. constructor; assumption.
  - constructor; [constructor; assumption|]. constructor; [exact C|]. eapply Forall_impl; [|exact Hy]. intros z Hz. exact (slt_trans _ _ _ C Hz).
  - constructor; [apply IH; exact Hr|]. apply Forall_forall. intros z Hz. apply in_map_iff in Hz. destruct Hz as (x & <- & Hx).
    apply put_nm in Hx. destruct Hx as [->|Hx]; [apply scmp_gt; exact C|]. rewrite Forall_forall in Hy. apply Hy. apply in_map. exact Hx.
Qed.
Lemma find_in n l x : find_impl n l = Some x -> In x l /\ nm x = n.
Proof. induction l as [|y r IH]; simpl; [discriminate|]. destruct (String.eqb_spec n (nm y)); intros H; [injection H as ->; auto|]. destruct (IH H); auto. Qed.
Lemma find_none n l : find_impl n l = None <-> ~ In n (map nm l).
Proof. induction l as [|y r IH]; simpl; [tauto|]. destruct (String.eqb_spec n (nm y)); [split; [discriminate|intros H; exfalso; apply H; auto]|]. rewrite IH. split; intros H; [intros [C|C]; congruence|tauto]. Qed.
Lemma ord_find l x : ord l -> In x l -> find_impl (nm x) l = Some x.
Proof.
  unfold ord. induction l as [|y r IH]; simpl; [tauto|]. intros O [->|H]; [rewrite seqb_refl; reflexivity|]. apply StronglySorted_inv in O. destruct O as [O F].
  rewrite seqb_neq; [apply IH; assumption|]. intros E. rewrite Forall_forall in F. specialize (F (nm x) (in_map nm _ _ H)). rewrite E in F. exact (slt_irr _ F).
Qed.
Lemma find_put e l n : ord l -> find_impl n (put e l) = if String.eqb n (nm e) then Some e else find_impl n l.
Proof.
  unfold ord. induction l as [|y r IH]; simpl; intros O; [destruct (String.eqb n (nm e)); reflexivity|]. apply StronglySorted_inv in O. destruct O as [O F].
  destruct (String.compare (nm e) (nm y)) eqn:C; simpl.
  - apply String.compare_eq_iff in C. rewrite C. destruct (String.eqb n (nm y)); reflexivity.
  - reflexivity.
  - rewrite (IH O). destruct (String.eqb_spec n (nm y)); [|reflexivity]. rewrite seqb_neq; [reflexivity|]. intros E. apply scmp_gt in C. rewrite <- E, <- e0 in C. exact (slt_irr _ C).
Qed.

(** ** The invariant *)
Definition sound (k : nat) (x : impl) : Prop := unit_score (score x) /\ length (hist x) = k.
Definition Inv (s : div) : Prop := ord (impls s) /\ Forall (sound (hsize s)) (impls s) /\ (Z.of_nat (hsize s) < 2 ^ 53)%Z.

Local Open Scope R_scope.
Lemma rate_unit h : h <> [] -> (Z.of_nat (length h) < 2 ^ 53)%Z -> unit_score (rate h).
Proof.
  intros N L. unfold rate. set (c := length (filter (fun b => b) h)). assert (Hc : (c <= length h)%nat).
  { unfold c. clear. induction h as [|[|] r IH]; simpl; lia. }
  assert (Hp : (0 < length h)%nat) by (destruct h; [congruence|simpl; lia]).
  destruct (ofZ_ex (Z.of_nat c)) as [O1 R1]; [lia|]. destruct (ofZ_ex (Z.of_nat (length h))) as [O2 R2]; [lia|].
  assert (P : 0 < IZR (Z.of_nat (length h))) by (apply IZR_lt; lia).
  assert (B : 0 <= IZR (Z.of_nat c) / IZR (Z.of_nat (length h)) <= 1).
  { assert (0 <= IZR (Z.of_nat c)) by (apply IZR_le; lia). assert (IZR (Z.of_nat c) <= IZR (Z.of_nat (length h))) by (apply IZR_le; lia).
    split; [apply Rmult_le_pos; [lra|]; left; apply Rinv_0_lt_compat; lra|].
    apply (Rmult_le_reg_r (IZR (Z.of_nat (length h)))); [lra|]. unfold Rdiv. rewrite Rmult_assoc, Rinv_l by lra. lra. }
  destruct (div_d (dofZ (Z.of_nat c)) (dofZ (Z.of_nat (length h)))) as [O3 R3]; [exact O1|exact O2|rewrite R2; lra|rewrite R1, R2; apply midz; lra|].
  split; [exact O3|]. rewrite R3, R1, R2. split; [apply rnd_pos|apply rnd_le1]; lra.
Qed.
Lemma okd_of x : V64 x = true -> fin x = true -> okd x. Proof. split; assumption. Qed.
Definition w9 : sf := dlit 9 10.
Definition w1 : sf := dsub (dofZ 1) (dlit 9 10).
Lemma w9_ok : okd w9 /\ 0 <= R w9 <= 1.
Proof.
  split; [split; vm_compute; reflexivity|]. destruct (ofZ_ex 0 eq_refl) as [O0 R0]. destruct (ofZ_ex 1 eq_refl) as [O1 R1].
  assert (O9 : okd w9) by (split; vm_compute; reflexivity).
  pose proof (proj1 (fle_d (dofZ 0) w9 O0 O9) ltac:(vm_compute; reflexivity)). pose proof (proj1 (fle_d w9 (dofZ 1) O9 O1) ltac:(vm_compute; reflexivity)). lra.
Qed.
Lemma w1_ok : okd w1 /\ 0 <= R w1 <= 1.
Proof.
  split; [split; vm_compute; reflexivity|]. destruct (ofZ_ex 0 eq_refl) as [O0 R0]. destruct (ofZ_ex 1 eq_refl) as [O1 R1].
  assert (O9 : okd w1) by (split; vm_compute; reflexivity).
  pose proof (proj1 (fle_d (dofZ 0) w1 O0 O9) ltac:(vm_compute; reflexivity)). pose proof (proj1 (fle_d w1 (dofZ 1) O9 O1) ltac:(vm_compute; reflexivity)). lra.
Qed.
Lemma w_sum : rnd64 (R w9 + R w1) = 1.
Proof.
  destruct w9_ok as [O9 B9]. destruct w1_ok as [O1 B1]. destruct (add_d w9 w1 O9 O1) as [_ E]; [apply midz; lra|]. rewrite <- E.
  replace (dadd w9 w1) with (dofZ 1) by (vm_compute; reflexivity). apply (ofZ_ex 1 eq_refl).
Qed.
Lemma unit_mul x w : unit_score x -> okd w -> 0 <= R w <= 1 -> okd (dmul x w) /\ R (dmul x w) = rnd64 (R x * R w) /\ 0 <= R (dmul x w) <= R w.
Proof.
  intros [Ox Bx] Ow Bw. assert (P : 0 <= R x * R w <= R w) by (split; [apply Rmult_le_pos; lra|]; rewrite <- (Rmult_1_l (R w)) at 2; apply Rmult_le_compat_r; lra).
  destruct (mul_d x w Ox Ow) as [O E]; [apply midz; lra|]. split; [exact O|]. split; [exact E|]. rewrite E. split; [apply rnd_pos; lra|].
  rewrite <- (rnd_R 53 1024 w (proj1 Ow)) at 2. apply rnd_mono. lra.
Qed.
Lemma blend_unfold a b : blend a b = dadd (dmul a w9) (dmul b w1). Proof. reflexivity. Qed.
Lemma blend_R a b : unit_score a -> unit_score b -> okd (blend a b) /\ R (blend a b) = rnd64 (rnd64 (R a * R w9) + rnd64 (R b * R w1)) /\ 0 <= R (blend a b) <= 1.
Proof.
  intros Ua Ub. destruct w9_ok as [O9 B9]. destruct w1_ok as [O1 B1]. rewrite blend_unfold.
  destruct (unit_mul a w9 Ua O9 B9) as (Oa & Ea & Ba). destruct (unit_mul b w1 Ub O1 B1) as (Ob & Eb & Bb).
  destruct (add_d _ _ Oa Ob) as [O E]; [apply midz; lra|]. split; [exact O|]. split; [rewrite E, Ea, Eb; reflexivity|].
  rewrite E. split; [apply rnd_pos; lra|]. rewrite <- w_sum. apply rnd_mono. lra.
Qed.
Lemma blend_unit a b : unit_score a -> unit_score b -> unit_score (blend a b).
Proof. intros A B. destruct (blend_R a b A B) as (O & _ & H). split; assumption. Qed.
Lemma blend_mono a b a' b' : unit_score a -> unit_score b -> unit_score a' -> unit_score b' -> R a <= R a' -> R b <= R b' -> R (blend a b) <= R (blend a' b').
Proof.
  intros A B A' B' La Lb. destruct (blend_R a b A B) as (_ & E & _). destruct (blend_R a' b' A' B') as (_ & E' & _). rewrite E, E'.
  destruct w9_ok as [O9 B9]. destruct w1_ok as [O1 B1].
  apply rnd_mono. apply Rplus_le_compat; apply rnd_mono; apply Rmult_le_compat_r; lra.
Qed.

Lemma judged_ok k x ok x' : (Z.of_nat k < 2 ^ 53)%Z -> sound k x -> judged x ok = Ret x' -> sound k x' /\ nm x' = nm x /\ fn x' = fn x /\
  hist x' = tl (hist x) ++ [ok] /\ score x' = blend (score x) (rate (tl (hist x) ++ [ok])).
Proof.
  unfold judged. intros K [U L]. destruct (hist x) as [|b h] eqn:E; [discriminate|]. intros H; injection H as <-. cbn [nm fn score hist tl].
  split; [|auto]. assert (length (h ++ [ok]) = k) by (rewrite app_length; simpl in L |- *; lia).
  split; cbn [score hist]; [|assumption]. apply blend_unit; [exact U|]. apply rate_unit; [destruct h; discriminate|lia].
Qed.
Lemma judged_total k x ok : (0 < k)%nat -> sound k x -> exists x', judged x ok = Ret x'.
Proof. intros K [_ L]. unfold judged. destruct (hist x); [simpl in L; lia|]. eexists; reflexivity. Qed.
