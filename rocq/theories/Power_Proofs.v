From Coq Require Import List NArith ZArith Bool SpecFloat Reals Permutation Lia Sorted.
Import ListNotations.
From Verif Require Import Outcome Words Arith Floats FloatsR HealthFloat Power_Model Power_Spec.
Local Open Scope Z_scope.

Definition nolev (c : comp) : comp := with_level c (S754_zero false).
Definition strip (x : Z * comp) : Z * comp := (fst x, nolev (snd x)).
Definition strips (l : list (Z * comp)) := map strip l.
Lemma with_level_twice c a b : with_level (with_level c a) b = with_level c b.
Proof. reflexivity. Qed.
Lemma with_level_id c : with_level c (ccur c) = c.
Proof. destruct c; reflexivity. Qed.
Lemma at_min_strip l : at_min l = at_min (strips l).
Proof. unfold at_min, strips. rewrite map_map. reflexivity. Qed.
Lemma strips_at_min l : strips (at_min l) = strips l.
Proof. unfold at_min, strips. rewrite map_map. reflexivity. Qed.
Lemma crit_strips l : map (fun x => ccrit (snd x)) (strips l) = map (fun x => ccrit (snd x)) l.
Proof. unfold strips. rewrite map_map. reflexivity. Qed.
Lemma ids_strips l : map fst (strips l) = map fst l.
Proof. unfold strips. rewrite map_map. reflexivity. Qed.
Lemma strips_strips l : strips (strips l) = strips l.
Proof. unfold strips. rewrite map_map. reflexivity. Qed.

Section O.
Variable ord : list sf -> list nat.
Hypothesis ordP : forall cs, Permutation (ord cs) (seq 0 (length cs)).
Notation sorted_comps := (sorted_comps ord).
Notation rebalanced := (rebalanced ord).

Lemma strips_sorted l : strips (sorted_comps l) = sorted_comps (strips l).
Proof.
  unfold Power_Model.sorted_comps. rewrite crit_strips. unfold strips at 1. rewrite map_map. apply map_ext. intros i.
  change (nth i (strips l) no_comp) with (nth i (map strip l) (strip no_comp)). rewrite map_nth. reflexivity.
Qed.
Lemma nth_seq_all {A} (l : list A) d : map (fun i => nth i l d) (seq 0 (length l)) = l.
Proof.
  induction l as [|x r IH]; [reflexivity|]. cbn [length seq map nth]. f_equal. rewrite <- seq_shift, map_map. exact IH.
Qed.
Lemma sorted_perm l : Permutation (sorted_comps l) l.
Proof.
  unfold Power_Model.sorted_comps. transitivity (map (fun i => nth i l no_comp) (seq 0 (length l))); [|rewrite nth_seq_all; reflexivity].
  apply Permutation_map. pose proof (ordP (map (fun x => ccrit (snd x)) l)) as Q. rewrite map_length in Q. exact Q.
Qed.
(** the loop changes nothing but levels *)
Lemma strips_upd i : forall l, strips (upd i l) = strips l.
Proof. induction i as [|i IH]; intros [|[k c] r]; cbn [upd]; auto. cbn [strips map]. f_equal. apply IH. Qed.
Lemma strips_loop n : forall r l, strips (snd (upgrade_loop n r l)) = strips l.
Proof.
  induction n as [|n IH]; intros r l; [reflexivity|]. cbn [upgrade_loop].
  destruct (fgt r (dofZ 0)); [|reflexivity]. destruct (snd (scan_best r 0 l (dofZ 0, None))); [|reflexivity].
  destruct (nth_error l n0) as [[k c]|]; [|reflexivity]. rewrite IH. apply strips_upd.
Qed.
Lemma strips_rebalanced b l : strips (rebalanced b l) = strips (sorted_comps l).
Proof.
  unfold Power_Model.rebalanced. destruct (fgt _ _).
  - unfold strips at 1. rewrite map_map. rewrite <- (strips_at_min (sorted_comps l)). unfold strips. apply map_ext. reflexivity.
  - rewrite strips_loop. apply strips_at_min.
Qed.
Lemma rebalanced_strips b l l' : strips l = strips l' -> rebalanced b l = rebalanced b l'.
Proof.
  intros H. unfold Power_Model.rebalanced. 
  assert (E : at_min (sorted_comps l) = at_min (sorted_comps l')) by (rewrite at_min_strip, strips_sorted, H, <- strips_sorted, <- at_min_strip; reflexivity).
  rewrite E. reflexivity.
Qed.
Lemma level_in_spec id c l d : NoDup (map fst l) -> In (id, c) l -> level_in id l d = ccur c.
Proof.
  induction l as [|[i x] r IH]; intros ND HI; [destruct HI|]. destruct HI as [H|H]; cbn [level_in map fst] in *.
  - injection H as -> ->. rewrite Z.eqb_refl. reflexivity.
  - inversion ND as [|? ? N1 N2]; subst. destruct (Z.eqb_spec i id) as [->|Ne]; [|auto].
    exfalso. apply N1. apply (in_map fst) in H. exact H.
Qed.
Lemma strip_inj_level x y : strip x = strip y -> ccur (snd x) = ccur (snd y) -> x = y.
Proof. destruct x as [i [a b c d e f]], y as [j [a' b' c' d' e' f']]. unfold strip, nolev, with_level. cbn. intros H E. subst. injection H. intros. subst. reflexivity. Qed.
Lemma write_back_perm F l : NoDup (map fst l) -> Permutation (strips F) (strips l) -> Permutation (write_back F l) F.
Proof.
  intros ND P.
  assert (Pi : Permutation (map fst F) (map fst l)) by (rewrite <- (ids_strips F), <- (ids_strips l); apply Permutation_map; exact P).
  assert (NF : NoDup (map fst F)) by (apply (Permutation_NoDup (l := map fst l)); [symmetry; exact Pi|exact ND]).
  assert (S1 : strips (write_back F l) = strips l) by (unfold write_back, strips; rewrite map_map; reflexivity).
  apply NoDup_Permutation.
  - apply (NoDup_map_inv fst). rewrite <- ids_strips, S1, ids_strips. exact ND.
  - apply (NoDup_map_inv fst). exact NF.
  - assert (A : forall x, In x (write_back F l) -> In x F).
    { intros x Hx. assert (Hs : In (strip x) (strips F)). { apply (Permutation_in (l := strips l)); [symmetry; exact P|]. rewrite <- S1. apply in_map. exact Hx. }
      apply in_map_iff in Hs. destruct Hs as [y [E Hy]]. assert (x = y); [|subst; exact Hy].
      apply strip_inj_level; [auto|]. unfold write_back in Hx. apply in_map_iff in Hx. destruct Hx as [z [Ez Hz]]. subst x. cbn [snd with_level ccur].
      destruct y as [j cy]. assert (j = fst z) by (injection E; auto). subst j. apply level_in_spec; auto. }
    intros x. split; [apply A|]. intros Hx. assert (Hs : In (strip x) (strips (write_back F l))).
    { rewrite S1. apply (Permutation_in (l := strips F)); [exact P|]. apply in_map. exact Hx. }
    apply in_map_iff in Hs. destruct Hs as [y [E Hy]]. assert (y = x); [|subst; exact Hy].
    pose proof (A y Hy) as Hy'. destruct x as [i cx], y as [j cy]. assert (j = i) by (injection E; auto). subst j.
    apply strip_inj_level; [auto|]. cbn [snd]. rewrite <- (level_in_spec i cx F (S754_zero false) NF Hx). rewrite <- (level_in_spec i cy F (S754_zero false) NF Hy'). reflexivity.
Qed.
Lemma strips_write_back F l : strips (write_back F l) = strips l.
Proof. unfold write_back, strips; rewrite map_map; reflexivity. Qed.
Lemma rebalanced_perm_strips b l : Permutation (strips (rebalanced b l)) (strips l).
Proof. rewrite strips_rebalanced, strips_sorted. apply sorted_perm. Qed.

(** ** Histories *)
Definition budget_of (s : pap) := state_budget (watts s) (pst s).
Definition ids_inc (l : list (Z * comp)) (n : Z) : Prop := StronglySorted Z.lt (map fst l) /\ Forall (fun i => 0 <= i < n) (map fst l).
Fixpoint lookup (k : Z) (l : list (Z * comp)) : option comp := match l with [] => None | (i, c) :: r => if i =? k then Some c else lookup k r end.
Definition settled (s : pap) : Prop := Permutation (comps s) (rebalanced (budget_of s) (comps s)).
Record inv (w : sf) (st0 : pstate) (t : history) (s : pap) : Prop := mkInv {
  i_w : watts s = w; i_m : pst s = mode st0 t;
  i_inc : ids_inc (comps s) (counter s);
  i_desc : forall k, option_map nolev (lookup k (comps s)) = option_map nolev (described t k);
  i_set : settled s;
  i_cnt : 0 <= counter s <= 2 ^ 31 - 1;
  i_ids : ids_given t = map Z.of_nat (seq 0 (Z.to_nat (counter s)))
}.
Lemma ids_inc_nodup l n : ids_inc l n -> NoDup (map fst l).
Proof.
  intros [H _]. induction H as [|a r H IH F]; constructor; auto. intros Hin. rewrite Forall_forall in F. specialize (F _ Hin). lia.
Qed.
Lemma lookup_strips k l : lookup k (strips l) = option_map nolev (lookup k l).
Proof. induction l as [|[i c] r IH]; [reflexivity|]. cbn [strips map strip fst snd lookup]. destruct (i =? k); [reflexivity|exact IH]. Qed.
Lemma lookup_app k l i c : lookup k (l ++ [(i, c)]) = match lookup k l with Some x => Some x | None => if i =? k then Some c else None end.
Proof. induction l as [|[j x] r IH]; [reflexivity|]. cbn [app lookup]. destruct (j =? k); [reflexivity|exact IH]. Qed.
Lemma lookup_none k l : ~ In k (map fst l) <-> lookup k l = None.
Proof.
  induction l as [|[j x] r IH]; cbn [map fst In lookup]; [tauto|]. destruct (Z.eqb_spec j k) as [->|Ne].
  - split; [intros H; exfalso; apply H; auto|discriminate].
  - rewrite <- IH. tauto.
Qed.
Lemma lookup_in k c l : NoDup (map fst l) -> (lookup k l = Some c <-> In (k, c) l).
Proof.
  induction l as [|[j x] r IH]; cbn [map fst In lookup]; intros ND; [split; [discriminate|tauto]|].
  inversion ND as [|? ? N1 N2]; subst. destruct (Z.eqb_spec j k) as [->|Ne].
  - split; [intros [= ->]; auto|]. intros [[= ->]|H]; [reflexivity|]. exfalso. apply N1. apply (in_map fst) in H. exact H.
  - rewrite (IH N2). split; [auto|]. intros [[= -> ->]|H]; [congruence|exact H].
Qed.
Lemma lookup_map_upd k id c l : lookup k (map (fun x => if fst x =? id then (fst x, c) else x) l) =
  match lookup k l with Some x => Some (if k =? id then c else x) | None => None end.
Proof.
  induction l as [|[j x] r IH]; [reflexivity|]. cbn [map lookup fst]. destruct (j =? id) eqn:E1; cbn [lookup]; destruct (Z.eqb_spec j k) as [->|Ne]; auto; rewrite E1; reflexivity.
Qed.
Lemma lookup_filter k id l : lookup k (filter (fun x => negb (fst x =? id)) l) = if k =? id then None else lookup k l.
Proof.
  induction l as [|[j x] r IH]; [destruct (k =? id); reflexivity|]. cbn [filter fst]. destruct (j =? id) eqn:E1; cbn [negb lookup].
  - rewrite IH. destruct (Z.eqb_spec j k) as [->|Ne]; [rewrite E1; reflexivity|reflexivity].
  - rewrite IH. destruct (Z.eqb_spec j k) as [->|Ne]; [rewrite E1; reflexivity|reflexivity].
Qed.
Lemma has_id_lookup id l : has_id id l = match lookup id l with Some _ => true | None => false end.
Proof. induction l as [|[j x] r IH]; [reflexivity|]. unfold has_id in *. cbn [existsb fst lookup]. destruct (j =? id); [reflexivity|exact IH]. Qed.
Lemma lookup_wb k F l : option_map nolev (lookup k (write_back F l)) = option_map nolev (lookup k l).
Proof. rewrite <- !lookup_strips, strips_write_back. reflexivity. Qed.
Lemma ids_wb F l : map fst (write_back F l) = map fst l.
Proof. unfold write_back. rewrite map_map. reflexivity. Qed.

Lemma settle w st l n : NoDup (map fst l) ->
  settled (mkP w st (write_back (rebalanced (state_budget w st) l) l) n).
Proof.
  intros ND. unfold settled, budget_of. cbn [watts pst comps]. rewrite (rebalanced_strips _ (write_back _ l) l) by apply strips_write_back.
  apply write_back_perm; [exact ND|]. apply rebalanced_perm_strips.
Qed.
Lemma rebalance_inv w st0 t s s' : watts s = w -> pst s = mode st0 t -> ids_inc (comps s) (counter s) ->
  (forall k, option_map nolev (lookup k (comps s)) = option_map nolev (described t k)) -> 0 <= counter s <= 2 ^ 31 - 1 ->
  ids_given t = map Z.of_nat (seq 0 (Z.to_nat (counter s))) ->
  rebalance ord s = Ret s' -> inv w st0 t s' /\ counter s' = counter s.
Proof.
  intros Hw Hm Hi Hd Hc Hg H. unfold rebalance in H. destruct (_ && _)%bool; [discriminate|]. injection H as <-.
  split; [|reflexivity]. constructor; cbn [watts pst comps counter]; auto.
  - unfold ids_inc. rewrite ids_wb. exact Hi.
  - intros k. rewrite lookup_wb. apply Hd.
  - apply settle. apply (ids_inc_nodup _ _ Hi).
Qed.
Lemma described_app t e : described (t ++ [e]) = desc_step (described t) e.
Proof. unfold described. rewrite fold_left_app. reflexivity. Qed.
Lemma mode_app st0 t e : mode st0 (t ++ [e]) = mode_step (mode st0 t) e.
Proof. unfold mode. rewrite fold_left_app. reflexivity. Qed.
Lemma ids_app t e : ids_given (t ++ [e]) = ids_given t ++ match snd e with RId i => [i] | _ => [] end.
Proof. unfold ids_given. rewrite flat_map_app. cbn [flat_map]. rewrite app_nil_r. reflexivity. Qed.
Lemma sorted_app_last l x : StronglySorted Z.lt l -> Forall (fun i => i < x) l -> StronglySorted Z.lt (l ++ [x]).
Proof.
  induction 1 as [|a r H IH F]; intros Hf; cbn [app]; [repeat constructor|]. inversion Hf; subst. constructor; [auto|].
  apply Forall_app. split; [exact F|]. constructor; [assumption|constructor].
Qed.
Lemma sorted_filter P l : StronglySorted Z.lt l -> StronglySorted Z.lt (filter P l).
Proof.
  induction 1 as [|a r H IH F]; cbn [filter]; [constructor|]. destruct (P a); [|exact IH]. constructor; [exact IH|].
  rewrite Forall_forall in *. intros x Hx. apply filter_In in Hx. apply F. tauto.
Qed.
Lemma pstate_eqb_eq a b : pstate_eqb a b = true <-> a = b.
Proof. destruct a, b; cbn; split; congruence. Qed.
Lemma some_iff {A B} (x : option A) (y : option B) (f : A -> comp) (g : B -> comp) : option_map f x = option_map g y ->
  match x with Some _ => true | None => false end = match y with Some _ => true | None => false end.
Proof. destruct x, y; cbn; congruence. Qed.
Lemma do_inv w st0 t s o x s' : inv w st0 t s -> pap_do ord o s = Ret (x, s') ->
  inv w st0 (t ++ [(o, x)]) s' /\
  match o with
  | ORegister _ => x = RId (counter s) /\ counter s < 2 ^ 31 - 1
  | OUpdate k _ | ORemove k => x = RBool (match described t k with Some _ => true | None => false end)
  | OState _ => x = RUnit
  end.
Proof.
  intros [Hw Hm Hi Hd Hs Hc Hg] H. destruct o as [c|id c|id|st]; cbn [pap_do] in H.
  - unfold pap_register in H. destruct (counter s =? 2 ^ 31 - 1) eqn:Ec; [discriminate|]. apply Z.eqb_neq in Ec.
    destruct (rebalance ord _) as [s1| | |] eqn:E; try discriminate. injection H as <- <-.
    destruct Hi as [Hi1 Hi2].
    apply (rebalance_inv w st0 (t ++ [(ORegister c, RId (counter s))])) in E; cbn [watts pst comps counter] in *; auto.
    + destruct E as [E _]. split; [exact E|]. split; [reflexivity|lia].
    + rewrite mode_app. exact Hm.
    + unfold ids_inc. rewrite map_app. cbn [map fst]. split.
      * apply sorted_app_last; [exact Hi1|]. eapply Forall_impl; [|exact Hi2]. cbn. intros; lia.
      * apply Forall_app. split; [|constructor; [lia|constructor]]. eapply Forall_impl; [|exact Hi2]. cbn. intros; lia.
    + intros k. rewrite described_app, lookup_app. cbn [desc_step]. specialize (Hd k). rewrite (Z.eqb_sym k).
      destruct (Z.eqb_spec (counter s) k) as [<-|Ne].
      * assert (lookup (counter s) (comps s) = None) as ->; [|reflexivity]. apply lookup_none. intros Hin.
        rewrite Forall_forall in Hi2. specialize (Hi2 _ Hin). lia.
      * rewrite <- Hd. destruct (lookup k (comps s)); reflexivity.
    + lia.
    + rewrite ids_app. cbn [snd]. rewrite Hg. replace (Z.to_nat (counter s + 1)) with (S (Z.to_nat (counter s))) by lia.
      rewrite seq_S, map_app. cbn [map plus]. rewrite Z2Nat.id by lia. reflexivity.
  - unfold pap_update in H. rewrite has_id_lookup in H. pose proof (some_iff _ _ _ _ (Hd id)) as Hs'.
    rewrite Hs' in H. destruct (described t id) as [c0|] eqn:Ed.
    + destruct (rebalance ord _) as [s1| | |] eqn:E; try discriminate. injection H as <- <-.
      apply (rebalance_inv w st0 (t ++ [(OUpdate id c, RBool true)])) in E; cbn [watts pst comps counter] in *; auto.
      * destruct E as [E _]. split; [exact E|reflexivity].
      * rewrite mode_app. exact Hm.
      * assert (map fst (map (fun x => if fst x =? id then (fst x, c) else x) (comps s)) = map fst (comps s)) as E0.
        { rewrite map_map. apply map_ext. intros [i y]. cbn [fst]. destruct (i =? id); reflexivity. }
        unfold ids_inc. rewrite E0. exact Hi.
      * intros k. rewrite described_app, lookup_map_upd. cbn [desc_step]. specialize (Hd k).
        destruct (Z.eqb_spec k id) as [->|Ne]; [|rewrite <- Hd; destruct (lookup k (comps s)); reflexivity].
        destruct (lookup id (comps s)); [reflexivity|]. cbn in Hs'. congruence.
      * rewrite ids_app. cbn [snd]. rewrite app_nil_r. exact Hg.
    + injection H as <- <-. split; [|reflexivity]. constructor; auto.
      * rewrite mode_app. exact Hm.
      * intros k. rewrite described_app. cbn [desc_step]. apply Hd.
      * rewrite ids_app. cbn [snd]. rewrite app_nil_r. exact Hg.
  - unfold pap_remove in H. rewrite has_id_lookup in H. pose proof (some_iff _ _ _ _ (Hd id)) as Hs'.
    rewrite Hs' in H. destruct (described t id) as [c0|] eqn:Ed.
    + destruct (rebalance ord _) as [s1| | |] eqn:E; try discriminate. injection H as <- <-.
      apply (rebalance_inv w st0 (t ++ [(ORemove id, RBool true)])) in E; cbn [watts pst comps counter] in *; auto.
      * destruct E as [E _]. split; [exact E|reflexivity].
      * rewrite mode_app. exact Hm.
      * assert (map fst (filter (fun x => negb (fst x =? id)) (comps s)) = filter (fun i => negb (i =? id)) (map fst (comps s))) as E0.
        { clear. induction (comps s) as [|[i y] r IH]; [reflexivity|]. cbn [filter map fst]. destruct (negb (i =? id)); cbn [map fst]; rewrite IH; reflexivity. }
        unfold ids_inc. rewrite E0. destruct Hi as [Hi1 Hi2]. split; [apply sorted_filter; exact Hi1|].
        rewrite Forall_forall in *. intros y Hy. apply filter_In in Hy. apply Hi2. tauto.
      * intros k. rewrite described_app, lookup_filter. cbn [desc_step]. destruct (k =? id); [reflexivity|apply Hd].
      * rewrite ids_app. cbn [snd]. rewrite app_nil_r. exact Hg.
    + injection H as <- <-. split; [|reflexivity]. constructor; auto.
      * rewrite mode_app. exact Hm.
      * intros k. rewrite described_app. cbn [desc_step]. apply Hd.
      * rewrite ids_app. cbn [snd]. rewrite app_nil_r. exact Hg.
  - unfold pap_set_state in H. destruct (pstate_eqb (pst s) st) eqn:E0.
    + apply pstate_eqb_eq in E0. injection H as <- <-. split; [|reflexivity]. constructor; auto.
      * rewrite mode_app. exact E0.
      * intros k. rewrite described_app. cbn [desc_step]. apply Hd.
      * rewrite ids_app. cbn [snd]. rewrite app_nil_r. exact Hg.
    + destruct (rebalance ord _) as [s1| | |] eqn:E; try discriminate. injection H as <- <-.
      apply (rebalance_inv w st0 (t ++ [(OState st, RUnit)])) in E; cbn [watts pst comps counter] in *; auto.
      * destruct E as [E _]. split; [exact E|reflexivity].
      * rewrite mode_app. reflexivity.
      * intros k. rewrite described_app. cbn [desc_step]. apply Hd.
      * rewrite ids_app. cbn [snd]. rewrite app_nil_r. exact Hg.
Qed.
Lemma inv_new w st0 : inv w st0 [] (pap_new w st0).
Proof.
  constructor; cbn; auto; try lia.
  - split; constructor.
  - unfold settled, budget_of. cbn [watts pst comps pap_new]. assert (E0 : rebalanced (state_budget w st0) [] = []); [|rewrite E0; constructor].
    unfold Power_Model.rebalanced.
    assert (sorted_comps [] = []) as ->.
    { apply Permutation_nil. symmetry. apply sorted_perm. }
    cbn [at_min map sum_power fold_left]. destruct (fgt _ _); [reflexivity|].
    assert (forall n r, snd (upgrade_loop n r []) = []) as E; [|apply E].
    intros [|n] r; cbn [upgrade_loop]; [reflexivity|]. destruct (fgt _ _); reflexivity.
Qed.
Lemma run_inv w st0 l : forall t0 s0 t s, inv w st0 t0 s0 -> pap_run ord l s0 = Ret (t, s) -> inv w st0 (t0 ++ t) s.
Proof.
  induction l as [|o r IH]; intros t0 s0 t s I H; cbn [pap_run] in H.
  - injection H as <- <-. rewrite app_nil_r. exact I.
  - destruct (pap_do ord o s0) as [[x s1]| | |] eqn:E; try discriminate.
    destruct (pap_run ord r s1) as [[t2 s2]| | |] eqn:E2; try discriminate. injection H as <- <-.
    destruct (do_inv _ _ _ _ _ _ _ I E) as [I1 _]. specialize (IH _ _ _ _ I1 E2). rewrite <- app_assoc in IH. exact IH.
Qed.
Theorem reachable_inv w st0 l t s : pap_run ord l (pap_new w st0) = Ret (t, s) -> inv w st0 t s.
Proof. intros H. apply (run_inv w st0 l [] _ t s (inv_new w st0) H). Qed.

(** ** C112 *)
Theorem bookkeeping w st0 l t s : pap_run ord l (pap_new w st0) = Ret (t, s) ->
  (exists n, ids_given t = map Z.of_nat (seq 0 n)) /\
  (forall k, (exists x, pap_level k s = Some x) <-> described t k <> None) /\
  (forall o x s', pap_do ord o s = Ret (x, s') ->
     match o with
     | ORegister _ => exists i, x = RId i /\ ~ In i (ids_given t)
     | OUpdate k _ | ORemove k => (x = RBool true <-> described t k <> None) /\ (x = RBool false <-> described t k = None)
     | OState _ => x = RUnit
     end).
Proof.
  intros H. pose proof (reachable_inv _ _ _ _ _ H) as I. pose proof I as [Hw Hm Hi Hd Hs Hc Hg].
  split; [eexists; exact Hg|]. split.
  - intros k. specialize (Hd k). unfold pap_level.
    assert (G : get_level k (comps s) = option_map ccur (lookup k (comps s))).
    { clear. induction (comps s) as [|[i c] r IH]; [reflexivity|]. cbn [get_level lookup]. destruct (i =? k); [reflexivity|exact IH]. }
    rewrite G. destruct (lookup k (comps s)), (described t k); cbn in *; try discriminate; split; try congruence; eauto.
    intros [x X]; discriminate.
  - intros o x s' E. destruct (do_inv _ _ _ _ _ _ _ I E) as [_ K]. destruct o as [c|k c|k|st]; auto.
    + destruct K as [-> K]. eexists. split; [reflexivity|]. rewrite Hg. intros Hin. apply in_map_iff in Hin. destruct Hin as [n [En Hn]]. apply in_seq in Hn. lia.
    + subst x. destruct (described t k); split; split; congruence.
    + subst x. destruct (described t k); split; split; congruence.
Qed.

(** ** C111 *)
Lemma sorted_lookup_eq l : forall l', StronglySorted Z.lt (map fst l) -> StronglySorted Z.lt (map fst l') ->
  (forall k, lookup k l = lookup k l') -> l = l'.
Proof.
  assert (Hd : forall i c r, StronglySorted Z.lt (map fst ((i, c) :: r)) -> forall k, k <= i -> lookup k r = None).
  { intros i c r S k Hk. cbn [map fst] in S. inversion S as [|? ? _ F]; subst. apply lookup_none. intros Hin. rewrite Forall_forall in F. specialize (F _ Hin). lia. }
  induction l as [|[i c] r IH]; intros [|[j d] q] S1 S2 H; auto.
  - specialize (H j). cbn [lookup] in H. rewrite Z.eqb_refl in H. discriminate.
  - specialize (H i). cbn [lookup] in H. rewrite Z.eqb_refl in H. discriminate.
  - assert (E : i = j /\ c = d).
    { pose proof (H i) as Hi. pose proof (H j) as Hj. cbn [lookup] in Hi, Hj. rewrite Z.eqb_refl in Hi, Hj.
      destruct (Z.eqb_spec j i) as [->|N1]; [injection Hi; auto|].
      destruct (Z.eqb_spec i j) as [->|N2]; [congruence|].
      destruct (Z.lt_total i j) as [L|[L|L]]; [|congruence|].
      - rewrite (Hd _ _ _ S2 i) in Hi by lia. discriminate.
      - rewrite (Hd _ _ _ S1 j) in Hj by lia. discriminate. }
    destruct E as [-> ->]. f_equal. apply IH.
    + cbn [map] in S1. inversion S1; assumption.
    + cbn [map] in S2. inversion S2; assumption.
    + intros k. destruct (Z.le_gt_cases k j) as [L|G].
      * rewrite (Hd _ _ _ S1 k L), (Hd _ _ _ S2 k L). reflexivity.
      * specialize (H k). cbn [lookup] in H. replace (j =? k) with false in H by (symmetry; apply Z.eqb_neq; lia). exact H.
Qed.
Lemma same_desc_nolev a b : same_desc a b -> option_map nolev a = option_map nolev b.
Proof.
  destruct a as [[a1 a2 a3 a4 a5 a6]|], b as [[b1 b2 b3 b4 b5 b6]|]; cbn; try tauto.
  intros (-> & -> & -> & -> & ->). reflexivity.
Qed.
Lemma levels_eq l l' F : StronglySorted Z.lt (map fst l) -> strips l = strips l' -> Permutation l F -> Permutation l' F -> l = l'.
Proof.
  intros S E P P'. assert (EI : map fst l = map fst l') by (rewrite <- ids_strips, E, ids_strips; reflexivity).
  assert (ND : NoDup (map fst l)). { clear -S. induction S as [|a r H IH F]; constructor; auto. intros Hin. rewrite Forall_forall in F. specialize (F _ Hin). lia. }
  apply sorted_lookup_eq; [exact S|rewrite <- EI; exact S|].
  intros k. pose proof (Permutation_trans P (Permutation_sym P')) as Q.
  destruct (lookup k l) as [c|] eqn:L.
  - symmetry. apply lookup_in; [rewrite <- EI; exact ND|]. apply (Permutation_in (l := l)); [exact Q|]. apply lookup_in; assumption.
  - symmetry. apply lookup_none. rewrite <- EI. apply lookup_none. exact L.
Qed.
Theorem history_free w st1 st2 l1 t1 s1 l2 t2 s2 :
  pap_run ord l1 (pap_new w st1) = Ret (t1, s1) -> pap_run ord l2 (pap_new w st2) = Ret (t2, s2) ->
  mode st1 t1 = mode st2 t2 -> (forall k, same_desc (described t1 k) (described t2 k)) ->
  (forall k, pap_level k s1 = pap_level k s2) /\ pap_usage s1 = pap_usage s2 /\ effectiveness s1 = effectiveness s2 /\ pap_budget s1 = pap_budget s2.
Proof.
  intros H1 H2 Hm Hd. destruct (reachable_inv _ _ _ _ _ H1) as [W1 M1 I1 D1 S1 _ _]. destruct (reachable_inv _ _ _ _ _ H2) as [W2 M2 I2 D2 S2 _ _].
  assert (EB : budget_of s1 = budget_of s2) by (unfold budget_of; rewrite W1, W2, M1, M2, Hm; reflexivity).
  assert (ES : strips (comps s1) = strips (comps s2)).
  { apply sorted_lookup_eq; rewrite ?ids_strips; try (apply I1); try (apply I2).
    intros k. rewrite !lookup_strips, D1, D2. apply same_desc_nolev. apply Hd. }
  assert (EC : comps s1 = comps s2).
  { apply (levels_eq _ _ (rebalanced (budget_of s1) (comps s1))); [apply I1|exact ES|exact S1|].
    unfold settled in S2. rewrite <- EB in S2. rewrite (rebalanced_strips _ _ _ ES). exact S2. }
  unfold pap_level, pap_usage, effectiveness, pap_budget. fold (budget_of s1). fold (budget_of s2). rewrite EC, EB. auto.
Qed.
End O.
