(** Lemmas about the memory manager. *)
From Coq Require Import List NArith Bool Lia Permutation.
Import ListNotations.
From Verif Require Import Outcome Umm_Model Umm_Spec.
Local Open Scope N_scope.

(** ** maps *)
Lemma keys_upd p f l : map fst (upd p f l) = map fst l.
Proof. induction l as [|[k i] l IH]; [reflexivity|]. cbn [upd]. destruct (k =? p); cbn [map fst]; congruence. Qed.
Lemma find_upd p f l q : find q (upd p f l) = if q =? p then option_map f (find q l) else find q l.
Proof.
  induction l as [|[k i] l IH]; [cbn; destruct (q =? p); reflexivity|]. cbn [upd find]. destruct (N.eqb_spec k p) as [E|E]; cbn [find].
  - subst k. destruct (N.eqb_spec p q) as [F|F]; [subst; rewrite N.eqb_refl; reflexivity|]. destruct (N.eqb_spec q p); [congruence|reflexivity].
  - destruct (N.eqb_spec k q) as [F|F]; [subst; destruct (N.eqb_spec q p); [congruence|reflexivity]|exact IH].
Qed.
Lemma find_none p l : find p l = None <-> ~ In p (map fst l).
Proof.
  induction l as [|[k i] l IH]; [cbn; tauto|]. cbn [find map fst In]. destruct (N.eqb_spec k p) as [E|E]; [split; [discriminate|tauto]|]. rewrite IH. tauto.
Qed.
Lemma find_some p l i : find p l = Some i -> In (p, i) l.
Proof. induction l as [|[k j] l IH]; [discriminate|]. cbn [find]. destruct (N.eqb_spec k p) as [E|E]; [intros H; injection H as ->; subst; left; reflexivity|right; auto]. Qed.
Lemma upd_none p f l : find p l = None -> upd p f l = l.
Proof. induction l as [|[k i] l IH]; [reflexivity|]. cbn [find upd]. destruct (k =? p); [discriminate|]. intros H. rewrite IH by exact H. reflexivity. Qed.
Lemma find_app p l l' : find p (l ++ l') = match find p l with Some i => Some i | None => find p l' end.
Proof. induction l as [|[k i] l IH]; [reflexivity|]. cbn [app find]. destruct (k =? p); auto. Qed.
Lemma find_del p l q : NoDup (map fst l) -> find q (del p l) = if q =? p then None else find q l.
Proof.
  induction l as [|[k i] l IH]; [cbn; destruct (q =? p); reflexivity|]. cbn [map fst]. intros H. apply NoDup_cons_iff in H. destruct H as [H1 H2]. cbn [del find].
  destruct (N.eqb_spec k p) as [E|E].
  - subst k. destruct (N.eqb_spec q p) as [F|F]; [subst; apply find_none, H1|]. destruct (N.eqb_spec p q); [congruence|reflexivity].
  - cbn [find]. destruct (N.eqb_spec k q) as [F|F]; [subst; destruct (N.eqb_spec q p); [congruence|reflexivity]|auto].
Qed.
Lemma keys_del p l : incl (map fst (del p l)) (map fst l).
Proof. induction l as [|[k i] l IH]; [apply incl_refl|]. cbn [del]. destruct (k =? p); cbn [map fst]; [apply incl_tl, incl_refl|]. intros x [H|H]; [left; exact H|right; apply IH, H]. Qed.
Lemma nodup_del p l : NoDup (map fst l) -> NoDup (map fst (del p l)).
Proof.
  induction l as [|[k i] l IH]; [auto|]. cbn [map fst del]. intros H. apply NoDup_cons_iff in H. destruct H as [H1 H2]. destruct (k =? p); [exact H2|]. cbn [map fst]. constructor; [|auto]. intros C. apply H1, (keys_del p), C.
Qed.
Lemma in_del p l a : In a (del p l) -> In a l.
Proof. induction l as [|[k i] l IH]; [auto|]. cbn [del]. destruct (k =? p); [right; exact H|]. intros [H|H]; [left; exact H|right; auto]. Qed.
Lemma in_upd p f l k i : In (k, i) (upd p f l) -> In (k, i) l \/ (k = p /\ exists j, In (p, j) l /\ i = f j).
Proof.
  induction l as [|[q j] l IH]; [cbn; tauto|]. cbn [upd]. destruct (N.eqb_spec q p) as [E|E].
  - intros [H|H]; [injection H as <- <-; right; split; [exact E|]; exists j; subst; split; [left; reflexivity|reflexivity]|left; right; exact H].
  - intros [H|H]; [left; left; exact H|]. destruct (IH H) as [A|(A & x & B & C)]; [left; right; exact A|right; split; [exact A|]; exists x; split; [right; exact B|exact C]].
Qed.
Lemma in_find p l i : NoDup (map fst l) -> In (p, i) l -> find p l = Some i.
Proof.
  induction l as [|[k j] l IH]; [intros _ []|]. cbn [map fst find]. intros H. apply NoDup_cons_iff in H. destruct H as [H1 H2]. intros [E|E].
  - injection E as -> ->. rewrite N.eqb_refl. reflexivity.
  - destruct (N.eqb_spec k p) as [F|F]; [subst k; exfalso; apply H1; apply (in_map fst) in E; exact E|auto].
Qed.
(** what the statistics depend on *)
Definition core (l : list (N * info)) : list (N * (N * bool)) := map (fun a => (fst a, (isize (snd a), prot (snd a)))) l.
Lemma core_upd_same p f l : (forall i, isize (f i) = isize i /\ prot (f i) = prot i) -> core (upd p f l) = core l.
Proof. intros H. induction l as [|[k i] l IH]; [reflexivity|]. cbn [upd]. destruct (k =? p); cbn [core map fst snd]; [destruct (H i) as [-> ->]; reflexivity|]. f_equal. exact IH. Qed.
Lemma core_app l l' : core (l ++ l') = core l ++ core l'.
Proof. apply map_app. Qed.

(** ** memory *)
Lemma fill_in m a n f x : a <= x -> x < a + n -> fill m a n f x = f x.
Proof. intros H1 H2. unfold fill. replace (a <=? x) with true by (symmetry; apply N.leb_le; lia). replace (x <? a + n) with true by (symmetry; apply N.ltb_lt; lia). reflexivity. Qed.
Lemma fill_out m a n f x : x < a \/ a + n <= x -> fill m a n f x = m x.
Proof. intros H. unfold fill. destruct (N.leb_spec a x), (N.ltb_spec x (a + n)); try reflexivity. lia. Qed.
Lemma access_spec bs p off n : access bs p off n = true <-> n = 0 \/ exists z, In (p, z) bs /\ off + n <= z.
Proof.
  unfold access. rewrite orb_true_iff, N.eqb_eq, existsb_exists. split; (intros [H|H]; [left; exact H|right]).
  - destruct H as ([q z] & H & E). cbn [fst snd] in E. apply andb_true_iff in E. destruct E as [E1 E2]. apply N.eqb_eq in E1. apply N.leb_le in E2. subst q. exists z. auto.
  - destruct H as (z & H & E). exists (p, z). split; [exact H|]. cbn [fst snd]. rewrite N.eqb_refl. apply N.leb_le, E.
Qed.
Lemma access_head bs p real off n : access ((p, real) :: bs) p off n = true <-> n = 0 \/ off + n <= real \/ exists z, In (p, z) bs /\ off + n <= z.
Proof.
  rewrite access_spec. split; (intros [H|H]; [left; exact H|right]).
  - destruct H as (z & [E|E] & L); [injection E as ->; left; exact L|right; exists z; auto].
  - destruct H as [H|(z & E & L)]; [exists real; split; [left; reflexivity|exact H]|exists z; split; [right; exact E|exact L]].
Qed.
Lemma get_put m a v x : x < a \/ a + 8 <= x -> put_u64 m a v x = m x.
Proof. apply fill_out. Qed.
Lemma get_put_u64 m a v : v < 2 ^ 64 -> get_u64 (put_u64 m a v) a = v.
Proof.
  intros H. unfold get_u64, put_u64. cbn [fold_right]. rewrite !fill_in by lia.
  replace (a + 0 - a) with 0 by lia. replace (a + 1 - a) with 1 by lia. replace (a + 2 - a) with 2 by lia. replace (a + 3 - a) with 3 by lia. replace (a + 4 - a) with 4 by lia.
  replace (a + 5 - a) with 5 by lia. replace (a + 6 - a) with 6 by lia. replace (a + 7 - a) with 7 by lia.
  assert (D : forall k x, x = x mod 2 ^ k + 2 ^ k * (x / 2 ^ k)) by (intros; pose proof (N.div_mod x (2 ^ k) ltac:(apply N.pow_nonzero; discriminate)); lia).
  assert (E : forall i x, x / 2 ^ (8 * i) mod 256 + 256 * (x / 2 ^ (8 * (i + 1))) = x / 2 ^ (8 * i)).
  { intros i x. replace (8 * (i + 1)) with (8 * i + 8) by lia. rewrite N.pow_add_r. rewrite <- N.div_div by (apply N.pow_nonzero; discriminate || discriminate). change (2 ^ 8) with 256. pose proof (N.div_mod (x / 2 ^ (8 * i)) 256 ltac:(discriminate)). lia. }
  pose proof (E 0 v) as E0. pose proof (E 1 v) as E1. pose proof (E 2 v) as E2. pose proof (E 3 v) as E3. pose proof (E 4 v) as E4. pose proof (E 5 v) as E5. pose proof (E 6 v) as E6.
  change (0 + 1) with 1 in *. change (1 + 1) with 2 in *. change (2 + 1) with 3 in *. change (3 + 1) with 4 in *. change (4 + 1) with 5 in *. change (5 + 1) with 6 in *. change (6 + 1) with 7 in *.
  assert (E7 : v / 2 ^ (8 * 7) < 256) by (apply N.div_lt_upper_bound; [discriminate|exact H]). pose proof (N.mod_small _ _ E7) as E8.
  assert (E9 : v / 2 ^ (8 * 0) = v) by apply N.div_1_r. clear E D H. rewrite <- E9 at 9. clear E9. revert E0 E1 E2 E3 E4 E5 E6 E7 E8.
  generalize (v / 2 ^ (8 * 0)) (v / 2 ^ (8 * 1)) (v / 2 ^ (8 * 2)) (v / 2 ^ (8 * 3)) (v / 2 ^ (8 * 4)) (v / 2 ^ (8 * 5)) (v / 2 ^ (8 * 6)) (v / 2 ^ (8 * 7)). intros q0 q1 q2 q3 q4 q5 q6 q7.
  generalize (q0 mod 256) (q1 mod 256) (q2 mod 256) (q3 mod 256) (q4 mod 256) (q5 mod 256) (q6 mod 256) (q7 mod 256). intros. lia.
Qed.
