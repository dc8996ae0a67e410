(** AlgorithmicDiversity: failures, exclusion and recovery. *)
From Coq Require Import String List NArith ZArith Bool SpecFloat Reals Lia Lra Sorted.
Import ListNotations.
From Flocq Require Import Core.
From Verif Require Import Outcome Words Arith Floats FloatsR HealthFloat BitsFloat_Proofs RMA3_Proofs Power2_Proofs Div_Model Div_Spec Div_Proofs Div2_Proofs Div3_Proofs.
Local Open Scope R_scope.

Lemma apply_total s o : Inv s -> (0 < hsize s)%nat -> exists s', apply s o = Ret s'.
Proof.
  intros I P. destruct o as [n f i|n ok|ans again|k]; cbn [apply]; [eexists; reflexivity|rewrite update_eq by assumption; eexists; reflexivity| |eexists; reflexivity].
  destruct (execute s ans again) as [[s' o]| | |] eqn:E; [eexists; reflexivity|..]; exfalso; rewrite execute_eq in E by assumption; cbv zeta in E;
  (destruct (tally ans (impls s) []); [|discriminate]; destruct (String.eqb _ _); [discriminate|]; destruct (find_impl _ _); [|discriminate]; destruct (again _ _); discriminate).
Qed.

Lemma rate_R h : h <> [] -> (Z.of_nat (length h) < 2 ^ 53)%Z -> R (rate h) = rnd64 (IZR (Z.of_nat (successes h)) / IZR (Z.of_nat (length h))).
Proof.
  intros N L. unfold rate, successes. set (c := length (filter (fun b => b) h)). assert (Hc : (c <= length h)%nat) by (unfold c; apply filter_le).
  assert (Hp : (0 < length h)%nat) by (destruct h; [congruence|simpl; lia]).
  destruct (ofZ_ex (Z.of_nat c)) as [O1 R1]; [lia|]. destruct (ofZ_ex (Z.of_nat (length h))) as [O2 R2]; [lia|].
  assert (P : 0 < IZR (Z.of_nat (length h))) by (apply IZR_lt; lia).
  destruct (div_d (dofZ (Z.of_nat c)) (dofZ (Z.of_nat (length h)))) as [O3 R3]; [exact O1|exact O2|rewrite R2; lra| |rewrite R3, R1, R2; reflexivity].
  rewrite R1, R2. assert (0 <= IZR (Z.of_nat c)) by (apply IZR_le; lia). assert (IZR (Z.of_nat c) <= IZR (Z.of_nat (length h))) by (apply IZR_le; lia).
  apply midz. split; [apply Rle_trans with 0; [lra|]; apply Rmult_le_pos; [lra|]; left; apply Rinv_0_lt_compat; lra|].
  apply Rle_trans with 1; [|lra]. apply (Rmult_le_reg_r (IZR (Z.of_nat (length h)))); [lra|]. unfold Rdiv. rewrite Rmult_assoc, Rinv_l by lra. lra.
Qed.
Lemma rate_mono h h' : h <> [] -> (Z.of_nat (length h) < 2 ^ 53)%Z -> length h' = length h -> (successes h <= successes h')%nat -> R (rate h) <= R (rate h').
Proof.
  intros N L E S. rewrite !rate_R; [|destruct h, h'; try discriminate; congruence|lia|assumption|assumption]. rewrite E. apply rnd_mono. apply Rmult_le_compat_r; [|apply IZR_le; lia].
  left. apply Rinv_0_lt_compat. apply IZR_lt. destruct h; [congruence|simpl; lia].
Qed.
Lemma successes_snoc h b : successes (h ++ [b]) = (successes h + if b then 1 else 0)%nat.
Proof. unfold successes. rewrite filter_app, app_length. destruct b; reflexivity. Qed.
(* one more success is never worse than one more failure *)
Lemma judge1_success k x : (0 < k)%nat -> (Z.of_nat k < 2 ^ 53)%Z -> sound k x -> R (score (judge1 x false)) <= R (score (judge1 x true)).
Proof.
  intros P K S. pose proof (judge1_sound k x false P K S) as [_ Lf]. destruct S as [U L]. unfold judge1 in *. cbn [score hist] in *.
  assert (Lt : length (tl (hist x) ++ [true]) = k) by (rewrite app_length in *; exact Lf).
  assert (Ne : forall b, tl (hist x) ++ [b] <> []) by (intros b C; apply app_eq_nil in C; destruct C; discriminate).
  apply blend_mono; [exact U|apply rate_unit; [apply Ne|lia]|exact U|apply rate_unit; [apply Ne|lia]|lra|].
  apply rate_mono; [apply Ne|lia|lia|]. rewrite !successes_snoc. lia.
Qed.
Lemma failure_le_success s n s1 s2 : Inv s -> (0 < hsize s)%nat -> update s n false = Ret s1 -> update s n true = Ret s2 -> R (reliability s1 n) <= R (reliability s2 n).
Proof.
  intros I P. rewrite !update_eq by assumption. intros E1 E2; injection E1 as <-; injection E2 as <-. unfold reliability. cbn [impls]. rewrite !find_map by apply upd1_nm.
  destruct (find_impl n (impls s)) as [x|] eqn:Fx; cbn [option_map]; [|lra]. destruct (find_in _ _ _ Fx) as [Ix Nx]. unfold upd1. rewrite Nx, seqb_refl. destruct I as (_ & F & K).
  rewrite Forall_forall in F. exact (judge1_success _ x P K (F x Ix)).
Qed.

(** ** Consecutive failures *)
Definition fails_last (j : nat) (h : list bool) : Prop := forall i, (i < j)%nat -> nth_error (rev h) i = Some false \/ (length h <= i)%nat.
Lemma fails_step j h : h <> [] -> fails_last j h -> fails_last (S j) (tl h ++ [false]).
Proof.
  intros N H i Hi. rewrite rev_app_distr. cbn [rev app]. destruct i as [|i]; [left; reflexivity|]. cbn [nth_error]. rewrite app_length. simpl.
  destruct (H i ltac:(lia)) as [E|E]; destruct h as [|b t]; try congruence; cbn [tl length rev] in *; [|right; lia].
  destruct (Nat.lt_ge_cases i (length t)) as [C|C]; [|right; lia]. left. rewrite nth_error_app1 in E by (rewrite rev_length; exact C). exact E.
Qed.
Lemma fails_all j h : (length h <= j)%nat -> fails_last j h -> successes h = O.
Proof.
  intros L H. assert (A : forall b, In b h -> b = false).
  { intros b Hb. apply in_rev in Hb. apply In_nth_error in Hb. destruct Hb as [i Ei]. assert (i < length (rev h))%nat by (apply nth_error_Some; congruence). rewrite rev_length in H0.
    destruct (H i ltac:(lia)) as [E|E]; [congruence|lia]. }
  unfold successes. clear - A. induction h as [|b t IH]; [reflexivity|]. simpl. rewrite (A b (or_introl eq_refl)). apply IH. intros; apply A; simpl; auto.
Qed.
Definition d0 : sf := S754_zero false.
Lemma d0_unit : unit_score d0. Proof. split; [split; reflexivity|]. cbn. lra. Qed.
Definition down (x : sf) : sf := blend x d0.
Fixpoint downs (k : nat) (x : sf) : sf := match k with O => x | S k => down (downs k x) end.
Lemma one_unit : unit_score (dofZ 1). Proof. destruct (ofZ_ex 1 eq_refl) as [O E]. split; [exact O|rewrite E; lra]. Qed.
Lemma downs_unit k x : unit_score x -> unit_score (downs k x).
Proof. intros U. induction k; [exact U|]. simpl. apply blend_unit; [assumption|apply d0_unit]. Qed.
Lemma rate_zero h : h <> [] -> (Z.of_nat (length h) < 2 ^ 53)%Z -> successes h = O -> R (rate h) = 0.
Proof. intros N L S. rewrite rate_R, S by assumption. cbn [Z.of_nat]. unfold Rdiv. rewrite Rmult_0_l. apply (rnd_z 0). reflexivity. Qed.
Lemma down_le x : unit_score x -> R (down x) <= R x.
Proof.
  intros U. destruct (blend_R x d0 U d0_unit) as (_ & E & _). unfold down. rewrite E. change (R d0) with 0. rewrite Rmult_0_l. rewrite (rnd_z 0) by reflexivity. rewrite Rplus_0_r.
  destruct w9_ok as [O9 B9]. destruct (unit_mul x w9 U O9 B9) as (Om & Em & _). rewrite <- Em. rewrite (rnd_R 53 1024 _ (proj1 Om)). rewrite Em. rewrite <- (rnd_R 53 1024 x (proj1 (proj1 U))) at 2. apply rnd_mono.
  rewrite <- (Rmult_1_r (R x)) at 2. apply Rmult_le_compat_l; [apply U|apply B9].
Qed.
(* what j consecutive failures do to an entry of a history of k *)
Definition failing (k j : nat) (x : impl) : Prop := sound k x /\ fails_last j (hist x) /\ R (score x) <= R (downs (j - (k - 1)) (dofZ 1)).
Lemma failing_start k x : (0 < k)%nat -> sound k x -> failing k 0 x.
Proof.
  intros P S. split; [exact S|]. split; [intros i Hi; lia|]. replace (0 - (k - 1))%nat with O by lia. cbn [downs]. destruct (ofZ_ex 1 eq_refl) as [_ E]. rewrite E. apply S.
Qed.
Lemma failing_step k j x : (0 < k)%nat -> (Z.of_nat k < 2 ^ 53)%Z -> failing k j x -> failing k (S j) (judge1 x false).
Proof.
  intros P K (S & Fl & Le). pose proof (judge1_sound k x false P K S) as S'. split; [exact S'|]. pose proof (nonempty_hist k x P S) as N. split.
  - unfold judge1. cbn [hist]. apply fails_step; assumption.
  - destruct (Nat.lt_ge_cases (Datatypes.S j) k) as [C|C].
    + replace (Datatypes.S j - (k - 1))%nat with O by lia. cbn [downs]. destruct (ofZ_ex 1 eq_refl) as [_ E]. rewrite E. apply S'.
    + replace (Datatypes.S j - (k - 1))%nat with (Datatypes.S (j - (k - 1))) by lia. cbn [downs]. unfold down, judge1. cbn [score].
      assert (Ne : tl (hist x) ++ [false] <> []) by (intros Q; apply app_eq_nil in Q; destruct Q; discriminate). destruct S' as [_ L']. unfold judge1 in L'. cbn [hist] in L'.
      apply blend_mono; [apply S|apply rate_unit; [exact Ne|lia]|apply downs_unit; apply one_unit|apply d0_unit|exact Le|].
      rewrite rate_zero; [cbn; lra|exact Ne|lia|]. apply (fails_all (Datatypes.S j)); [lia|]. apply fails_step; assumption.
Qed.
Lemma downs_16 : R (downs 16 (dofZ 1)) < R (dlit 2 10).
Proof. apply flt_d; [apply downs_unit; apply one_unit|split; vm_compute; reflexivity|vm_compute; reflexivity]. Qed.
Lemma downs_mono i j : (i <= j)%nat -> R (downs j (dofZ 1)) <= R (downs i (dofZ 1)).
Proof. induction 1; [lra|]. simpl. eapply Rle_trans; [apply down_le; apply downs_unit; apply one_unit|exact IHle]. Qed.
Lemma lit02_ok : okd (dlit 2 10). Proof. split; vm_compute; reflexivity. Qed.
Lemma failing_excluded k j x : (0 < k)%nat -> failing k j x -> (k + 15 <= j)%nat -> excluded x = true.
Proof.
  intros P (S & _ & Le) J. unfold excluded. apply flt_d; [apply S|apply lit02_ok|]. pose proof (downs_mono 16 (j - (k - 1)) ltac:(lia)). pose proof downs_16. 
  apply Rle_lt_trans with (1 := Le). apply Rle_lt_trans with (1 := H). exact H0.
Qed.
Lemma updates_failing s n x j : Inv s -> (0 < hsize s)%nat -> find_impl n (impls s) = Some x ->
  exists s' x', updates s n (repeat false j) = Ret s' /\ Inv s' /\ hsize s' = hsize s /\ find_impl n (impls s') = Some x' /\ failing (hsize s) j x'.
Proof.
  intros I P Fx. induction j as [|j IH].
  - exists s, x. split; [reflexivity|]. split; [exact I|]. split; [reflexivity|]. split; [exact Fx|]. apply (failing_start (hsize s) x P). destruct I as (_ & F & _). rewrite Forall_forall in F. apply F. apply find_in in Fx. tauto.
  - destruct IH as (s1 & x1 & E & I1 & H1 & F1 & Fl). cbn [repeat]. rewrite repeat_cons. rewrite updates_snoc, E, update_eq by (try assumption; lia).
    do 2 eexists. split; [reflexivity|]. split; [apply update_inv; [assumption|lia]|]. split; [exact H1|]. cbn [impls]. rewrite find_map by apply upd1_nm. rewrite F1. split; [reflexivity|].
    unfold upd1. rewrite (proj2 (find_in _ _ _ F1)), seqb_refl. apply failing_step; [exact P|destruct I as (_ & _ & K); exact K|exact Fl].
Qed.
(* once the window holds only failures, another failure does not raise the score *)
Lemma failure_lowers s n j s1 s2 : Inv s -> (0 < hsize s)%nat -> (hsize s <= S j)%nat -> updates s n (repeat false j) = Ret s1 -> update s1 n false = Ret s2 -> R (reliability s2 n) <= R (reliability s1 n).
Proof.
  intros I P J U1 U2. destruct (find_impl n (impls s)) as [x|] eqn:Fx.
  - destruct (updates_failing s n x j I P Fx) as (s1' & x1 & E & I1 & H1 & F1 & Fl). rewrite E in U1. injection U1 as <-. rewrite update_eq in U2 by (try assumption; lia). injection U2 as <-.
    unfold reliability. cbn [impls]. rewrite find_map by apply upd1_nm. rewrite F1. cbn [option_map]. unfold upd1. rewrite (proj2 (find_in _ _ _ F1)), seqb_refl.
    destruct I as (_ & _ & K). destruct (failing_step _ _ _ P K Fl) as (S' & Fl' & _). destruct Fl as (S1 & Fl1 & _).
    assert (Ne : tl (hist x1) ++ [false] <> []) by (intros Q; apply app_eq_nil in Q; destruct Q; discriminate). destruct S' as [_ L']. unfold judge1 in *. cbn [hist score] in *.
    eapply Rle_trans; [|apply (down_le (score x1)); apply S1]. unfold down. apply blend_mono; [apply S1|apply rate_unit; [exact Ne|lia]|apply S1|apply d0_unit|lra|].
    rewrite rate_zero; [cbn; lra|exact Ne|lia|]. apply (fails_all (Datatypes.S j)); [lia|]. exact Fl'.
  - assert (N : forall o t, hsize t = hsize s -> find_impl n (impls t) = None -> update t n o = Ret t).
    { intros o t _ H. unfold update. rewrite update_in_absent; [destruct t; reflexivity|]. apply find_none. exact H. }
    assert (U : forall k, updates s n (repeat false k) = Ret s). { induction k as [|k IH]; [reflexivity|]. cbn [repeat updates]. rewrite N by auto. exact IH. }
    rewrite U in U1. injection U1 as <-. rewrite N in U2 by auto. injection U2 as <-. lra.
Qed.

(** ** Exclusion by executions *)
Lemma runs_excluded xs : forall s s' n, Inv s -> (0 < hsize s)%nat -> flt (reliability s n) (dlit 2 10) = true -> runs s xs = Ret s' -> reliability s' n = reliability s n.
Proof.
  induction xs as [|[a b] r IH]; intros s s' n I P Ex; cbn [runs]; [intros H; injection H as <-; reflexivity|].
  destruct (execute s a b) as [[s1 o]| | |] eqn:E; try discriminate. intros H. pose proof (execute_state s a b s1 o I P E) as ->.
  assert (Same : reliability (stepped s a) n = reliability s n). { rewrite stepped_reliability. unfold reliability in *. destruct (find_impl n (impls s)); [|reflexivity]. unfold after. unfold excluded. rewrite Ex. reflexivity. }
  rewrite <- Same. apply (IH (stepped s a)); [apply stepped_inv; assumption|exact P|rewrite Same; exact Ex|exact H].
Qed.
Lemma runs_failing xs : forall s n x j s', Inv s -> (0 < hsize s)%nat -> find_impl n (impls s) = Some x -> (excluded x = true \/ failing (hsize s) j x) ->
  (forall a b, In (a, b) xs -> throws (a n (fn x))) -> runs s xs = Ret s' -> exists x', find_impl n (impls s') = Some x' /\ (excluded x' = true \/ failing (hsize s) (j + length xs) x').
Proof.
  induction xs as [|[a b] r IH]; intros s n x j s' I P Fx D T; cbn [runs].
  - intros H; injection H as <-. exists x. split; [exact Fx|]. cbn [length]. rewrite Nat.add_0_r. exact D.
  - destruct (execute s a b) as [[s1 o]| | |] eqn:E; try discriminate. intros H. pose proof (execute_state s a b s1 o I P E) as ->.
    cbn [length]. replace (j + Datatypes.S (length r))%nat with (Datatypes.S j + length r)%nat by lia.
    apply (IH (stepped s a) n (after a x) (Datatypes.S j) s'); [apply stepped_inv; assumption|exact P|unfold stepped; cbn [impls]; rewrite find_map by apply after_nm; rewrite Fx; reflexivity| | |exact H].
    + cbn [stepped hsize]. unfold after. destruct (excluded x) eqn:X; [left; exact X|]. destruct D as [D|D]; [congruence|]. right.
      destruct (T a b (or_introl eq_refl)) as [e Ee]. rewrite (proj2 (find_in _ _ _ Fx)), Ee. apply failing_step; [exact P|destruct I as (_ & _ & K); exact K|exact D].
    + intros a' b' Hin. replace (fn (after a x)) with (fn x); [apply (T a' b'); simpl; auto|]. unfold after, judge1. destruct (excluded x), (a (nm x) (fn x)); reflexivity.
Qed.
Lemma runs_exclude s n x xs s' : Inv s -> (0 < hsize s)%nat -> find_impl n (impls s) = Some x -> (forall a b, In (a, b) xs -> throws (a n (fn x))) ->
  (hsize s + 15 <= length xs)%nat -> runs s xs = Ret s' -> flt (reliability s' n) (dlit 2 10) = true.
Proof.
  intros I P Fx T L E. assert (Sx : sound (hsize s) x) by (destruct I as (_ & F & _); rewrite Forall_forall in F; apply F; apply find_in in Fx; tauto).
  destruct (runs_failing xs s n x 0 s' I P Fx (or_intror (failing_start _ x P Sx)) T E) as (x' & Fx' & D). unfold reliability. rewrite Fx'.
  destruct D as [D|D]; [exact D|]. exact (failing_excluded _ _ x' P D L).
Qed.
Lemma runs_total xs : forall s, Inv s -> (0 < hsize s)%nat -> exists s', runs s xs = Ret s'.
Proof.
  induction xs as [|[a b] r IH]; intros s I P; cbn [runs]; [eexists; reflexivity|]. destruct (apply_total s (Execute a b) I P) as [s1 E]. cbn [apply] in E.
  destruct (execute s a b) as [[s2 o]| | |] eqn:E2; try discriminate. pose proof (execute_state s a b s2 o I P E2) as ->. apply IH; [apply stepped_inv; assumption|exact P].
Qed.

(** ** Recovery *)
Definition succ_last (j : nat) (h : list bool) : Prop := forall i, (i < j)%nat -> nth_error (rev h) i = Some true \/ (length h <= i)%nat.
Lemma succ_step j h : h <> [] -> succ_last j h -> succ_last (S j) (tl h ++ [true]).
Proof.
  intros N H i Hi. rewrite rev_app_distr. cbn [rev app]. destruct i as [|i]; [left; reflexivity|]. cbn [nth_error]. rewrite app_length. simpl.
  destruct (H i ltac:(lia)) as [E|E]; destruct h as [|b t]; try congruence; cbn [tl length rev] in *; [|right; lia].
  destruct (Nat.lt_ge_cases i (length t)) as [C|C]; [|right; lia]. left. rewrite nth_error_app1 in E by (rewrite rev_length; exact C). exact E.
Qed.
Lemma succ_all j h : (length h <= j)%nat -> succ_last j h -> successes h = length h.
Proof.
  intros L H. assert (A : forall b, In b h -> b = true).
  { intros b Hb. apply in_rev in Hb. apply In_nth_error in Hb. destruct Hb as [i Ei]. assert (i < length (rev h))%nat by (apply nth_error_Some; congruence). rewrite rev_length in H0.
    destruct (H i ltac:(lia)) as [E|E]; [congruence|lia]. }
  unfold successes. clear - A. induction h as [|b t IH]; [reflexivity|]. simpl. rewrite (A b (or_introl eq_refl)). simpl. f_equal. apply IH. intros; apply A; simpl; auto.
Qed.
Fixpoint ups (k : nat) (x : sf) : sf := match k with O => x | S k => blend (ups k x) (dofZ 1) end.
Lemma ups_unit k x : unit_score x -> unit_score (ups k x).
Proof. intros U. induction k; [exact U|]. simpl. apply blend_unit; [assumption|apply one_unit]. Qed.
Definition recovering (k j : nat) (x : impl) : Prop := sound k x /\ succ_last j (hist x) /\ ((j - (k - 1) <= 3)%nat -> R (ups (j - (k - 1)) d0) <= R (score x)) .
Lemma recovering_start k x : (0 < k)%nat -> sound k x -> recovering k 0 x.
Proof. intros P S. split; [exact S|]. split; [intros i Hi; lia|]. intros _. replace (0 - (k - 1))%nat with O by lia. cbn [ups]. change (R d0) with 0. apply S. Qed.
Lemma rate_one h : h <> [] -> (Z.of_nat (length h) < 2 ^ 53)%Z -> successes h = length h -> R (rate h) = 1.
Proof.
  intros N L S. rewrite rate_R, S by assumption. assert (IZR (Z.of_nat (length h)) <> 0). { apply not_0_IZR. destruct h; [congruence|simpl; lia]. }
  unfold Rdiv. rewrite Rinv_r by assumption. apply (rnd_z 1). reflexivity.
Qed.
Lemma recovering_step k j x : (0 < k)%nat -> (Z.of_nat k < 2 ^ 53)%Z -> recovering k j x -> recovering k (S j) (judge1 x true).
Proof.
  intros P K (S & Fl & Le). pose proof (judge1_sound k x true P K S) as S'. split; [exact S'|]. pose proof (nonempty_hist k x P S) as N. split.
  - unfold judge1. cbn [hist]. apply succ_step; assumption.
  - intros J3. destruct (Nat.lt_ge_cases (Datatypes.S j) k) as [C|C].
    + replace (Datatypes.S j - (k - 1))%nat with O by lia. cbn [ups]. change (R d0) with 0. apply S'.
    + replace (Datatypes.S j - (k - 1))%nat with (Datatypes.S (j - (k - 1))) by lia. cbn [ups]. unfold judge1. cbn [score].
      assert (Ne : tl (hist x) ++ [true] <> []) by (intros Q; apply app_eq_nil in Q; destruct Q; discriminate). destruct S' as [_ L']. unfold judge1 in L'. cbn [hist] in L'.
      apply blend_mono; [apply ups_unit; apply d0_unit|apply one_unit|apply S|apply rate_unit; [exact Ne|lia]|apply Le; lia|].
      rewrite rate_one; [destruct (ofZ_ex 1 eq_refl) as [_ E]; rewrite E; lra|exact Ne|lia|]. apply (succ_all (Datatypes.S j)); [lia|]. apply succ_step; assumption.
Qed.
Lemma ups_3 : R (dlit 2 10) <= R (ups 3 d0).
Proof. apply fle_d; [apply lit02_ok|apply ups_unit; apply d0_unit|vm_compute; reflexivity]. Qed.
Lemma updates_recovering s n x j : Inv s -> (0 < hsize s)%nat -> find_impl n (impls s) = Some x ->
  exists s' x', updates s n (repeat true j) = Ret s' /\ Inv s' /\ hsize s' = hsize s /\ find_impl n (impls s') = Some x' /\ recovering (hsize s) j x'.
Proof.
  intros I P Fx. induction j as [|j IH].
  - exists s, x. split; [reflexivity|]. split; [exact I|]. split; [reflexivity|]. split; [exact Fx|]. apply (recovering_start (hsize s) x P). destruct I as (_ & F & _). rewrite Forall_forall in F. apply F. apply find_in in Fx. tauto.
  - destruct IH as (s1 & x1 & E & I1 & H1 & F1 & Fl). cbn [repeat]. rewrite repeat_cons. rewrite updates_snoc, E, update_eq by (try assumption; lia).
    do 2 eexists. split; [reflexivity|]. split; [apply update_inv; [assumption|lia]|]. split; [exact H1|]. cbn [impls]. rewrite find_map by apply upd1_nm. rewrite F1. split; [reflexivity|].
    unfold upd1. rewrite (proj2 (find_in _ _ _ F1)), seqb_refl. apply recovering_step; [exact P|destruct I as (_ & _ & K); exact K|exact Fl].
Qed.
Lemma recover s n s' : Inv s -> (0 < hsize s)%nat -> In n (names s) -> updates s n (repeat true (hsize s + 2)) = Ret s' -> flt (reliability s' n) (dlit 2 10) = false.
Proof.
  intros I P Hn U. destruct (find_impl n (impls s)) as [x|] eqn:Fx; [|apply find_none in Fx; tauto].
  destruct (updates_recovering s n x (hsize s + 2) I P Fx) as (s1 & x1 & E & I1 & H1 & F1 & (S1 & _ & Le)). rewrite E in U. injection U as <-. unfold reliability. rewrite F1.
  apply flt_dF; [apply S1|apply lit02_ok|]. apply Rle_trans with (1 := ups_3). replace 3%nat with (hsize s + 2 - (hsize s - 1))%nat by lia. apply Le. lia.
Qed.

(** ** Resizing *)
Lemma resize_same s : Inv s -> set_history_size s (hsize s) = s.
Proof.
  intros (_ & F & _). destruct s as [l k]. cbn [set_history_size impls hsize] in *. unfold set_history_size. cbn [impls]. f_equal. induction F as [|x r [_ L] F IH]; [reflexivity|]. cbn [map]. f_equal; [|exact IH].
  unfold resized. rewrite <- L, firstn_all, Nat.sub_diag. simpl. rewrite app_nil_r. destruct x; reflexivity.
Qed.
Lemma resize_scores s k n : reliability (set_history_size s k) n = reliability s n.
Proof. unfold reliability, set_history_size. cbn [impls]. induction (impls s) as [|x r IH]; [reflexivity|]. cbn [map find_impl nm]. destruct (String.eqb n (nm x)); [reflexivity|exact IH]. Qed.
Lemma resize_grow h k : (length h <= k)%nat -> exists b, resized h k = h ++ repeat b (k - length h).
Proof. intros L. unfold resized. rewrite firstn_all2 by exact L. eexists; reflexivity. Qed.
