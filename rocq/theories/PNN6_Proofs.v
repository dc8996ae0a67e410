(** The statements of PNN_Props, assembled. *)
From Coq Require Import List NArith ZArith Bool Arith Lia SpecFloat.
Import ListNotations.
From Verif Require Import Outcome Words Arith Floats Bits_Model MBP_Model MBP_Spec PNN_Model PNN_Spec PNN_Proofs PNN2_Proofs PNN3_Proofs PNN4_Proofs PNN5_Proofs.
Local Open Scope nat_scope.
Local Open Scope outcome_scope.

Lemma forward_formula s x rad d : reachable s -> no_vote s rad -> length x = hd O (sizes s) ->
  exists s', forward s x rad d = Ret (network (params s) (acts s) x, s') /\ same_network s s' /\ length (network (params s) (acts s) x) = last (sizes s) O.
Proof.
  intros HR NV Hx. pose proof (Inv_reachable s HR) as HI. destruct (forward_quiet s x rad d HI NV Hx) as [c E]. exists (with_counter s c). split; [exact E|]. split; [repeat split|].
  destruct (forward_shape s x rad d HI Hx) as (y & t & c' & E' & L & _). rewrite E in E'; injection E' as <- _. exact L.
Qed.
Lemma forward_rejects s x rad d : length x <> hd O (sizes s) -> forward s x rad d = Throw E_invalid_argument.
Proof. intros H. unfold forward. apply Nat.eqb_neq in H; rewrite H; reflexivity. Qed.
Lemma forward_voted s x rad d : reachable s -> (forall l i, legal_act (d l i)) -> no_collision rad d -> float_valued (acts s) -> length x = hd O (sizes s) ->
  exists s', forward s x rad d = Ret (network (params s) (acts s) x, s').
Proof. intros HR. apply forward_network, Inv_reachable, HR. Qed.
Lemma forward_harmless s x rad d : reachable s -> length x = hd O (sizes s) ->
  exists y s', forward s x rad d = Ret (y, s') /\ length y = last (sizes s) O /\ wts s' = wts s /\ bss s' = bss s /\ acts s' = acts s /\ mirror s' = mirror s /\ sizes s' = sizes s /\ lvl s' = lvl s.
Proof.
  intros HR Hx. destruct (forward_shape s x rad d (Inv_reachable s HR) Hx) as (y & t & c & E & L & _). exists y, (with_counter (with_st s t) c). repeat split; auto.
Qed.
Lemma stats_balanced s : reachable s -> (detected (st s) = corrected (st s) + uncorrectable (st s))%N /\ (snd (getErrorStats s) <= fst (getErrorStats s))%N /\ getErrorStats (resetErrorStats s) = (0%N, 0%N).
Proof. intros HR. pose proof (inv_st s (Inv_reachable s HR)) as H. split; [exact H|]. split; [cbn; lia|reflexivity]. Qed.
Lemma strike_confined s l i j v s' x rad d : reachable s -> raw_setWeight s l i j v = Ret s' -> no_vote s rad -> length x = hd O (sizes s) ->
  weight_at s' l i j = Some v /\ (forall l' i' j', (l', i', j') <> (l, i, j) -> weight_at s' l' i' j' = weight_at s l' i' j') /\ bss s' = bss s /\
  exists s'', forward s' x rad d = Ret (network (params s') (acts s) x, s'') /\ getErrorStats s'' = getErrorStats s.
Proof.
  intros HR H NV Hx. pose proof (Inv_reachable s HR) as HI.
  destruct (get3 (wts s) l i j) as [c|] eqn:E; [|unfold raw_setWeight in H; rewrite E in H; discriminate].
  pose proof (Inv_raw_setWeight _ _ _ _ _ _ HI H) as HI'.
  rewrite (raw_setWeight_ok s l i j v c HI E) in H; injection H as <-. split; [|split; [|split]].
  - unfold weight_at. cbn [wts with_w]. rewrite get3_put3, !Nat.eqb_refl, E. reflexivity.
  - intros l' i' j' NE. unfold weight_at. cbn [wts with_w]. rewrite get3_put3.
    destruct (Nat.eqb_spec l' l) as [->|]; [|reflexivity]. destruct (Nat.eqb_spec i' i) as [->|]; [|reflexivity]. destruct (Nat.eqb_spec j' j) as [->|]; [congruence|reflexivity].
  - reflexivity.
  - destruct (forward_quiet _ x rad d HI' NV Hx) as [c' E']. eexists; split; [exact E'|]. reflexivity.
Qed.
Lemma repair_harmless s : reachable s -> repairAllWeights s = s.
Proof. intros HR; apply repairAll_id, Inv_reachable, HR. Qed.
Lemma weights_set s l m : tidy s -> l < length (wts s) -> matrix (nth l (sizes s) O) (nth (S l) (sizes s) O) m ->
  exists s', setLayerWeights s l m = Ret (s', None) /\ params s' = upd (params s) l (fun p => (m, snd p)) /\ mirror s' = upd (mirror s) l (fun p => (m, snd p)) /\ same_rest s s'.
Proof.
  intros HT Hl [Hm HF]. destruct (tidy_inv s HT) as [HI HM]. destruct (setLayerWeights_edit s l m HI HM Hl Hm) as (s' & E & (P & M & R & _)).
  rewrite (lead_all _ _ HF) in *. rewrite Nat.eqb_refl in E. exists s'. split; [exact E|].
  assert (G : forall ps, shape ps = shape (params s) -> upd ps l (fun p => (firstn (length m) m ++ skipn (length m) (fst p), snd p)) = upd ps l (fun p => (m, snd p))).
  { intros ps HS. apply upd_ext; intros p Ep. destruct (shape_layer s l ps HI Hl HS) as (p' & Ep' & S1 & _). rewrite Ep in Ep'; injection Ep' as <-.
    rewrite firstn_all, skipn_all2, app_nil_r by lia. reflexivity. }
  split; [rewrite P; apply G; reflexivity|]. split; [rewrite M; apply G; exact HM|]. exact R.
Qed.
Lemma weights_rejected s l m : tidy s -> ~ (l < length (wts s) /\ matrix (nth l (sizes s) O) (nth (S l) (sizes s) O) m) ->
  exists s' e k, setLayerWeights s l m = Ret (s', Some e) /\ same_rest s s' /\
    params s' = upd (params s) l (fun p => (firstn k m ++ skipn k (fst p), snd p)) /\
    (length (wts s) <= l -> e = E_out_of_range /\ s' = s) /\
    (l < length (wts s) -> e = E_invalid_argument) /\
    (l < length (wts s) -> length m <> nth l (sizes s) O -> s' = s) /\
    (l < length (wts s) -> length m = nth l (sizes s) O -> exists r, nth_error m k = Some r /\ length r <> nth (S l) (sizes s) O /\ Forall (fun r => length r = nth (S l) (sizes s) O) (firstn k m)).
Proof.
  intros HT H. destruct (tidy_inv s HT) as [HI HM].
  assert (U0 : forall l, params s = upd (params s) l (fun p => (firstn 0 m ++ skipn 0 (fst p), snd p))) by (intros l0; symmetry; apply upd_same; intros [w b] _; reflexivity).
  destruct (Nat.leb_spec (length (wts s)) l) as [Hl|Hl].
  { exists s, E_out_of_range, 0. unfold setLayerWeights. apply Nat.leb_le in Hl as Hl'; rewrite Hl'. repeat split; auto; lia. }
  destruct (Nat.eq_dec (length m) (nth l (sizes s) O)) as [Hm|Hm].
  - destruct (setLayerWeights_edit s l m HI HM Hl Hm) as (s' & E & (P & M & R & _)). set (k := lead (nth (S l) (sizes s) O) m) in *.
    assert (Hk : k < length m).
    { pose proof (lead_le (nth (S l) (sizes s) O) m) as HK. fold k in HK. destruct (Nat.eq_dec k (length m)) as [Ek|]; [|lia]. exfalso. apply H. split; [exact Hl|]. split; [exact Hm|].
      pose proof (lead_forall (nth (S l) (sizes s) O) m) as F. fold k in F. rewrite Ek, firstn_all in F. exact F. }
    destruct (Nat.eqb_spec k (length m)); [lia|]. exists s', E_invalid_argument, k. split; [exact E|]. split; [exact R|]. split; [exact P|]. split; [lia|]. split; [auto|].
    split; [congruence|]. intros _ _. destruct (lead_row _ _ Hk) as (r & E1 & E2). exists r. split; [exact E1|]. split; [exact E2|]. apply lead_forall.
  - exists s, E_invalid_argument, 0. unfold setLayerWeights. apply Nat.leb_gt in Hl as Hl'; rewrite Hl'. apply Nat.eqb_neq in Hm as Hm'; rewrite Hm'. cbn [negb].
    repeat split; auto; lia.
Qed.
Lemma biases_set s l b : tidy s ->
  exists s' e, setLayerBiases s l b = Ret (s', e) /\ same_rest s s' /\
    (length (bss s) <= l -> e = Some E_out_of_range /\ s' = s) /\
    (l < length (bss s) -> length b <> nth (S l) (sizes s) O -> e = Some E_invalid_argument /\ s' = s) /\
    (l < length (bss s) -> length b = nth (S l) (sizes s) O -> e = None /\ params s' = upd (params s) l (fun p => (fst p, b)) /\ mirror s' = upd (mirror s) l (fun p => (fst p, b))).
Proof.
  intros HT. destruct (tidy_inv s HT) as [HI HM].
  destruct (Nat.leb_spec (length (bss s)) l) as [Hl|Hl].
  { exists s, (Some E_out_of_range). unfold setLayerBiases. apply Nat.leb_le in Hl as Hl'; rewrite Hl'. repeat split; auto; lia. }
  destruct (Nat.eq_dec (length b) (nth (S l) (sizes s) O)) as [Hm|Hm].
  - destruct (setLayerBiases_edit s l b HI HM Hl Hm) as (s' & E & (P & M & R & _)). exists s', None. split; [exact E|]. split; [exact R|]. split; [lia|]. split; [congruence|]. auto.
  - exists s, (Some E_invalid_argument). unfold setLayerBiases. apply Nat.leb_gt in Hl as Hl'; rewrite Hl'. apply Nat.eqb_neq in Hm as Hm'; rewrite Hm'. cbn [negb].
    repeat split; auto; lia.
Qed.
Lemma train_idle s data labels e r : reachable s -> train s data labels e 0%N = Ret r -> params (snd r) = params s /\ acts (snd r) = acts s /\ mirror (snd r) = mirror s.
Proof. intros HR H. destruct (train_inv s data labels e 0%N r (Inv_reachable s HR) H) as (c & t & E & _). rewrite E. repeat split. Qed.
Lemma train_loss s data labels samples e : reachable s -> 0 < hd O (sizes s) -> samples_of (hd O (sizes s)) (last (sizes s) O) samples data labels ->
  exists s', train s data labels e 0%N = Ret (match e with O => 0%N | S _ => mean_squared_error (network (params s) (acts s)) samples end, s') /\ same_network s s'.
Proof. intros HR Hn HS. destruct (train_mse s data labels samples e 0%N (Inv_reachable s HR) Hn HS) as [c E]. eexists; split; [exact E|]. repeat split. Qed.
Lemma evaluate_exact s data labels samples : reachable s -> 0 < hd O (sizes s) -> samples_of (hd O (sizes s)) (last (sizes s) O) samples data labels ->
  exists s', evaluate s data labels = Ret (f32sub (f32ofN 1) (mean_squared_error (network (params s) (acts s)) samples), s') /\ same_network s s'.
Proof.
  intros HR Hn HS. destruct (calculateLoss_mse s data labels samples (Inv_reachable s HR) Hn HS) as [c E]. unfold evaluate. rewrite E. cbn [obind fst snd].
  eexists; split; [reflexivity|]. repeat split.
Qed.
Lemma new_exact ls lv init : (forall k, S k < length ls -> 0 < nth k ls O + nth (S k) ls O) -> 2 <= length ls ->
  exists s, pnn_new ls lv init = Ret s /\ sizes s = ls /\ lvl s = lv /\ length (wts s) = length ls - 1 /\
    (forall l i j, S l < length ls -> i < nth l ls O -> j < nth (S l) ls O -> weight_at s l i j = Some (init l i j)) /\
    (forall l j, S l < length ls -> j < nth (S l) ls O -> bias_at s l j = Some 0%N) /\
    acts s = repeat relu (length ls - 1) /\ st s = mkStats 0 0 0 /\ mirror s = params s.
Proof.
  intros HN HL. assert (ES : exists s, pnn_new ls lv init = Ret s).
  { unfold pnn_new. destruct (Nat.ltb_spec (length ls) 2); [lia|]. destruct (existsb _ _) eqn:E; [exfalso|eauto].
    apply existsb_exists in E; destruct E as (p & Hp & E). apply Nat.eqb_eq in E. apply In_nth_error in Hp; destruct Hp as [k Hk].
    assert (k < length (pairs ls)) by (apply nth_error_Some; congruence). rewrite pairs_length in H0. apply nth_error_pairs in Hk; subst p. cbn [fst snd] in E.
    specialize (HN k ltac:(lia)). lia. }
  destruct ES as [s E]. exists s. split; [exact E|]. pose proof (Inv_new _ _ _ _ E) as HI. pose proof (new_mirror _ _ _ _ E) as HM.
  unfold pnn_new in E. destruct (Nat.ltb _ _); [discriminate|]. destruct (existsb _ _); [discriminate|]. injection E as <-.
  cbn [sizes lvl wts acts st]. split; [reflexivity|]. split; [reflexivity|]. split; [exact (inv_w _ HI)|]. split; [|split; [|auto]].
  - intros l i j Hl Hi Hj. unfold weight_at. cbn [wts]. rewrite get3_map. unfold get3. rewrite nth_error_map, nth_error_index.
    destruct (nth_error_ex (pairs ls) l) as [p Ep]; [rewrite pairs_length; lia|]. rewrite Ep. rewrite (nth_error_pairs _ _ _ Ep). cbn [option_map fst snd Nat.add].
    rewrite nth_error_map. assert (N1 : forall a n, a < n -> nth_error (seq 0 n) a = Some a) by (intros a n Ha; rewrite (nth_error_nth' _ 0) by (rewrite seq_length; exact Ha); rewrite seq_nth by exact Ha; reflexivity).
    rewrite (N1 i _ Hi). cbn [option_map]. rewrite nth_error_map, (N1 j _ Hj). reflexivity.
  - intros l j Hl Hj. unfold bias_at. cbn [bss]. rewrite get2_map. unfold get2. rewrite nth_error_map, nth_error_index.
    destruct (nth_error_ex (pairs ls) l) as [p Ep]; [rewrite pairs_length; lia|]. rewrite Ep. rewrite (nth_error_pairs _ _ _ Ep). cbn [option_map fst snd Nat.add].
    rewrite nth_error_repeat by exact Hj. reflexivity.
Qed.
Lemma activation_set s l f : reachable s ->
  (l < length (sizes s) - 1 -> exists s', setActivationFunction s l f = Ret s' /\ acts s' = upd (acts s) l (fun _ => f) /\ nth_error (acts s') l = Some f /\
     params s' = params s /\ mirror s' = mirror s /\ sizes s' = sizes s /\ lvl s' = lvl s /\ st s' = st s /\ counter s' = counter s) /\
  (length (sizes s) - 1 <= l -> setActivationFunction s l f = Throw E_out_of_range).
Proof.
  intros HR. pose proof (Inv_reachable s HR) as HI. unfold setActivationFunction. rewrite (inv_a s HI). split; intros H.
  - apply Nat.leb_gt in H as H'; rewrite H'. eexists; split; [reflexivity|]. cbn [acts]. split; [reflexivity|]. split; [|repeat split].
    rewrite nth_error_upd, Nat.eqb_refl. destruct (nth_error_ex (acts s) l) as [g Eg]; [rewrite (inv_a s HI); exact H|]. rewrite Eg; reflexivity.
  - apply Nat.leb_le in H as H'; rewrite H'. reflexivity.
Qed.
