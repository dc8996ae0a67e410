(** Proofs about the protected neural network. *)
From Coq Require Import List NArith ZArith Bool Arith Lia SpecFloat.
Import ListNotations.
From Verif Require Import Outcome Words Arith Floats Bits_Model MBP_Model PNN_Model PNN_Spec.
Local Open Scope nat_scope.

(** ** lists *)
Lemma nth_error_upd {A} (l : list A) i f k : nth_error (upd l i f) k = if Nat.eqb k i then option_map f (nth_error l k) else nth_error l k.
Proof.
  revert i k; induction l as [|a l IH]; intros i k.
  - destruct i, k; simpl; try reflexivity. destruct (Nat.eqb k i); reflexivity.
  - destruct i as [|i], k as [|k]; simpl; try reflexivity. apply IH.
Qed.
Lemma upd_length {A} (l : list A) i f : length (upd l i f) = length l.
Proof. revert i; induction l as [|a l IH]; intros [|i]; simpl; auto. Qed.
Lemma upd_same {A} (l : list A) i f : (forall x, nth_error l i = Some x -> f x = x) -> upd l i f = l.
Proof.
  revert i; induction l as [|a l IH]; intros [|i] H; simpl; auto.
  - rewrite (H a eq_refl); reflexivity.
  - rewrite IH; auto.
Qed.
Lemma upd_ext {A} (l : list A) i f g : (forall x, nth_error l i = Some x -> f x = g x) -> upd l i f = upd l i g.
Proof.
  revert i; induction l as [|a l IH]; intros [|i] H; simpl; auto.
  - rewrite (H a eq_refl); reflexivity.
  - rewrite (IH i); auto.
Qed.
Lemma upd_upd {A} (l : list A) i f g : upd (upd l i f) i g = upd l i (fun x => g (f x)).
Proof. revert i; induction l as [|a l IH]; intros [|i]; simpl; auto. rewrite IH; reflexivity. Qed.
Lemma map_upd {A B} (h : A -> B) (l : list A) i f g : (forall x, h (f x) = g (h x)) -> map h (upd l i f) = upd (map h l) i g.
Proof.
  intros H; revert i; induction l as [|a l IH]; intros [|i]; simpl; auto.
  - rewrite H; reflexivity.
  - rewrite IH; reflexivity.
Qed.
Lemma combine_upd_l {A B} (l : list A) (m : list B) i f : combine (upd l i f) m = upd (combine l m) i (fun p => (f (fst p), snd p)).
Proof. revert m i; induction l as [|a l IH]; intros [|b m] [|i]; simpl; auto. rewrite IH; reflexivity. Qed.
Lemma combine_upd_r {A B} (l : list A) (m : list B) i f : combine l (upd m i f) = upd (combine l m) i (fun p => (fst p, f (snd p))).
Proof. revert m i; induction l as [|a l IH]; intros [|b m] [|i]; simpl; auto. rewrite IH; reflexivity. Qed.
Lemma nth_error_ext {A} (l l' : list A) : (forall k, nth_error l k = nth_error l' k) -> l = l'.
Proof.
  revert l'; induction l as [|a l IH]; intros [|b l'] H; auto; try (specialize (H O); discriminate).
  pose proof (H O) as H0; simpl in H0; injection H0 as ->. f_equal; apply IH; intros k; exact (H (S k)).
Qed.
Lemma get3_put3 {A} (w : list (list (list A))) l i j c l' i' j' :
  get3 (put3 w l i j c) l' i' j' =
  if (Nat.eqb l' l && Nat.eqb i' i && Nat.eqb j' j)%bool then option_map (fun _ => c) (get3 w l i j) else get3 w l' i' j'.
Proof.
  unfold get3, put3; rewrite nth_error_upd.
  destruct (Nat.eqb_spec l' l) as [->|]; simpl; [|reflexivity].
  destruct (nth_error w l) as [m|]; simpl; [|destruct (_ && _)%bool; reflexivity].
  rewrite nth_error_upd. destruct (Nat.eqb_spec i' i) as [->|]; simpl; [|reflexivity].
  destruct (nth_error m i) as [r|]; simpl; [|destruct (Nat.eqb j' j); reflexivity].
  rewrite nth_error_upd. destruct (Nat.eqb_spec j' j) as [->|]; reflexivity.
Qed.
Lemma get2_put2 {A} (b : list (list A)) l j c l' j' :
  get2 (put2 b l j c) l' j' = if (Nat.eqb l' l && Nat.eqb j' j)%bool then option_map (fun _ => c) (get2 b l j) else get2 b l' j'.
Proof.
  unfold get2, put2; rewrite nth_error_upd.
  destruct (Nat.eqb_spec l' l) as [->|]; simpl; [|reflexivity].
  destruct (nth_error b l) as [m|]; simpl; [|destruct (Nat.eqb j' j); reflexivity].
  rewrite nth_error_upd. destruct (Nat.eqb_spec j' j) as [->|]; reflexivity.
Qed.
Lemma put3_same {A} (w : list (list (list A))) l i j c : get3 w l i j = Some c -> put3 w l i j c = w.
Proof.
  unfold get3, put3; intros H. apply upd_same; intros m Hm; rewrite Hm in H. apply upd_same; intros r Hr; rewrite Hr in H.
  apply upd_same; intros x Hx; rewrite Hx in H; congruence.
Qed.
Lemma put2_same {A} (b : list (list A)) l j c : get2 b l j = Some c -> put2 b l j c = b.
Proof. unfold get2, put2; intros H. apply upd_same; intros r Hr; rewrite Hr in H. apply upd_same; intros x Hx; rewrite Hx in H; congruence. Qed.

(** ** the invariant *)
Definition ok_cell (c : mbp) : Prop := valid_ c = true /\ coding_scheme_ c = NONE.
Definition layer_ok (a b : nat) (m : list (list mbp)) : Prop := length m = a /\ Forall (fun r => length r = b /\ Forall ok_cell r) m.
Record Inv (s : pnn) : Prop := {
  inv_len : 2 <= length (sizes s);
  inv_w : length (wts s) = length (sizes s) - 1;
  inv_b : length (bss s) = length (sizes s) - 1;
  inv_a : length (acts s) = length (sizes s) - 1;
  inv_wl : forall l m, nth_error (wts s) l = Some m -> layer_ok (nth l (sizes s) O) (nth (S l) (sizes s) O) m;
  inv_bl : forall l b, nth_error (bss s) l = Some b -> length b = nth (S l) (sizes s) O /\ Forall ok_cell b;
  inv_st : (detected (st s) = corrected (st s) + uncorrectable (st s))%N }.

Lemma ok_hasError c : ok_cell c -> hasError c = false.
Proof. intros [H1 H2]; unfold hasError; rewrite H1, H2; reflexivity. Qed.
Lemma ok_read c t : ok_cell c -> read_cell c t = (value_ c, c, t).
Proof. intros H; unfold read_cell, getValue; rewrite (ok_hasError c H). rewrite (ok_hasError c H); reflexivity. Qed.
Lemma ok_set c v : ok_cell c -> setValue c v = mkmb v NONE (ecc_data_ c) true.
Proof. intros [H1 H2]; unfold setValue, updateECC; simpl; rewrite H2; reflexivity. Qed.
Lemma ok_strike c v : ok_cell c -> strike c v = mkmb v NONE (ecc_data_ c) true.
Proof. intros [H1 H2]; unfold strike; rewrite H1, H2; reflexivity. Qed.

Lemma get3_ok s l i j c : Inv s -> get3 (wts s) l i j = Some c -> ok_cell c.
Proof.
  intros HI; unfold get3. destruct (nth_error (wts s) l) as [m|] eqn:Em; [|discriminate].
  destruct (nth_error m i) as [r|] eqn:Er; [|discriminate]. intros Ec.
  destruct (inv_wl s HI l m Em) as [_ HF]. rewrite Forall_forall in HF.
  destruct (HF r (nth_error_In _ _ Er)) as [_ HR]. rewrite Forall_forall in HR. exact (HR c (nth_error_In _ _ Ec)).
Qed.
Lemma get2_ok s l j c : Inv s -> get2 (bss s) l j = Some c -> ok_cell c.
Proof.
  intros HI; unfold get2. destruct (nth_error (bss s) l) as [m|] eqn:Em; [|discriminate]. intros Ec.
  destruct (inv_bl s HI l m Em) as [_ HF]. rewrite Forall_forall in HF. exact (HF c (nth_error_In _ _ Ec)).
Qed.
Lemma nth_error_ex {A} (l : list A) i : i < length l -> exists x, nth_error l i = Some x.
Proof. intros H. destruct (nth_error l i) eqn:E; eauto. apply nth_error_None in E; lia. Qed.
Lemma get3_ex s l i j : Inv s -> l < length (wts s) -> i < nth l (sizes s) O -> j < nth (S l) (sizes s) O -> exists c, get3 (wts s) l i j = Some c.
Proof.
  intros HI Hl Hi Hj; unfold get3. destruct (nth_error_ex (wts s) l Hl) as [m Em]; rewrite Em.
  destruct (inv_wl s HI l m Em) as [HL HF]. destruct (nth_error_ex m i) as [r Er]; [lia|]; rewrite Er.
  rewrite Forall_forall in HF. destruct (HF r (nth_error_In _ _ Er)) as [HR _]. apply nth_error_ex; lia.
Qed.
Lemma get2_ex s l j : Inv s -> l < length (bss s) -> j < nth (S l) (sizes s) O -> exists c, get2 (bss s) l j = Some c.
Proof.
  intros HI Hl Hj; unfold get2. destruct (nth_error_ex (bss s) l Hl) as [m Em]; rewrite Em.
  destruct (inv_bl s HI l m Em) as [HL HF]. apply nth_error_ex; lia.
Qed.

Lemma with_w_id s : with_w s (wts s) = s. Proof. destruct s; reflexivity. Qed.
Lemma with_b_id s : with_b s (bss s) = s. Proof. destruct s; reflexivity. Qed.
Lemma with_st_id s : with_st s (st s) = s. Proof. destruct s; reflexivity. Qed.

Lemma getWeight_ok s l i j c : Inv s -> get3 (wts s) l i j = Some c -> getWeight s l i j = Ret (value_ c, s).
Proof.
  intros HI H; unfold getWeight; rewrite H, (ok_read c _ (get3_ok s l i j c HI H)), (put3_same _ _ _ _ _ H), with_w_id, with_st_id; reflexivity.
Qed.
Lemma getBias_ok s l j c : Inv s -> get2 (bss s) l j = Some c -> getBias s l j = Ret (value_ c, s).
Proof.
  intros HI H; unfold getBias; rewrite H, (ok_read c _ (get2_ok s l j c HI H)), (put2_same _ _ _ _ H), with_b_id, with_st_id; reflexivity.
Qed.

(** ** repair does nothing *)
Lemma repair_row_id r t : Forall ok_cell r -> repair_row r t = (r, t).
Proof. intros H; revert t; induction H as [|c r Hc Hr IH]; intros t; simpl; auto. rewrite (ok_hasError c Hc), IH; reflexivity. Qed.
Lemma repair_rows_id m t : Forall (Forall ok_cell) m -> repair_rows m t = (m, t).
Proof. intros H; revert t; induction H as [|c r Hc Hr IH]; intros t; simpl; auto. rewrite (repair_row_id c _ Hc), IH; reflexivity. Qed.
Lemma repair_layers_id m t : Forall (Forall (Forall ok_cell)) m -> repair_layers m t = (m, t).
Proof. intros H; revert t; induction H as [|c r Hc Hr IH]; intros t; simpl; auto. rewrite (repair_rows_id c _ Hc), IH; reflexivity. Qed.
Lemma inv_all_w s : Inv s -> Forall (Forall (Forall ok_cell)) (wts s).
Proof.
  intros HI. apply Forall_forall; intros m Hm. apply In_nth_error in Hm; destruct Hm as [l Hm].
  destruct (inv_wl s HI l m Hm) as [_ HF]. eapply Forall_impl; [|exact HF]; intros r [_ H]; exact H.
Qed.
Lemma inv_all_b s : Inv s -> Forall (Forall ok_cell) (bss s).
Proof. intros HI. apply Forall_forall; intros m Hm. apply In_nth_error in Hm; destruct Hm as [l Hm]. apply (inv_bl s HI l m Hm). Qed.
Lemma repairAll_id s : Inv s -> repairAllWeights s = s.
Proof.
  intros HI; unfold repairAllWeights. rewrite (repair_layers_id _ _ (inv_all_w s HI)), (repair_rows_id _ _ (inv_all_b s HI)). destruct s; reflexivity.
Qed.
Lemma Inv_counter s c : Inv s -> Inv (with_counter s c).
Proof. intros [H1 H2 H3 H4 H5 H6 H7]; constructor; assumption. Qed.
Lemma Inv_mirror s c : Inv s -> Inv (with_mirror s c).
Proof. intros [H1 H2 H3 H4 H5 H6 H7]; constructor; assumption. Qed.
Definition balanced (t : stats) : Prop := (detected t = corrected t + uncorrectable t)%N.
Lemma Inv_stats s t : Inv s -> balanced t -> Inv (with_st s t).
Proof. intros [H1 H2 H3 H4 H5 H6 H7] H; constructor; assumption. Qed.
Lemma adapt_shape s rad : Inv s -> adaptToRadiationLevel s rad = with_counter s (counter (adaptToRadiationLevel s rad)).
Proof.
  intros HI; unfold adaptToRadiationLevel.
  assert (E : s = with_counter s (counter s)) by (destruct s; reflexivity).
  destruct (lvl s); try exact E.
  destruct (_ =? 0)%N.
  - rewrite (repairAll_id _ (Inv_counter s _ HI)). reflexivity.
  - reflexivity.
Qed.
Lemma Inv_adapt s rad : Inv s -> Inv (adaptToRadiationLevel s rad).
Proof. intros HI; rewrite (adapt_shape s rad HI); apply Inv_counter, HI. Qed.

(** ** one layer *)
Definition pv (s : pnn) (l i j : nat) : N := nth j (nth i (fst (nth l (params s) ([], []))) []) 0%N.
Definition pb (s : pnn) (l j : nat) : N := nth j (snd (nth l (params s) ([], []))) 0%N.
Lemma nth_params s l m b : nth_error (wts s) l = Some m -> nth_error (bss s) l = Some b ->
  nth_error (params s) l = Some (map (map value_) m, map value_ b).
Proof.
  unfold params. intros Hm Hb.
  assert (G : forall (A B : Type) (x : list A) (y : list B) k p q, nth_error x k = Some p -> nth_error y k = Some q -> nth_error (combine x y) k = Some (p, q)).
  { clear. intros A B x; induction x as [|a x IH]; intros [|c y] [|k] p q H1 H2; simpl in *; try discriminate; try congruence. eauto. }
  apply G; rewrite nth_error_map; [rewrite Hm | rewrite Hb]; reflexivity.
Qed.
Lemma pv_get s l i j c : Inv s -> get3 (wts s) l i j = Some c -> pv s l i j = value_ c.
Proof.
  intros HI; unfold get3. destruct (nth_error (wts s) l) as [m|] eqn:Em; [|discriminate].
  destruct (nth_error m i) as [r|] eqn:Er; [|discriminate]. intros Ec.
  assert (Hl : l < length (bss s)). { rewrite (inv_b s HI), <- (inv_w s HI). apply nth_error_Some; congruence. }
  destruct (nth_error_ex _ _ Hl) as [b Eb].
  unfold pv. rewrite (nth_error_nth (params s) l ([], []) (nth_params s l m b Em Eb)). simpl.
  assert (E1 : nth i (map (map value_) m) [] = map value_ r) by (apply nth_error_nth; rewrite nth_error_map, Er; reflexivity).
  rewrite E1. apply nth_error_nth. rewrite nth_error_map, Ec; reflexivity.
Qed.
Lemma pb_get s l j c : Inv s -> get2 (bss s) l j = Some c -> pb s l j = value_ c.
Proof.
  intros HI; unfold get2. destruct (nth_error (bss s) l) as [b|] eqn:Eb; [|discriminate]. intros Ec.
  assert (Hl : l < length (wts s)). { rewrite (inv_w s HI), <- (inv_b s HI). apply nth_error_Some; congruence. }
  destruct (nth_error_ex _ _ Hl) as [m Em].
  unfold pb. rewrite (nth_error_nth (params s) l ([], []) (nth_params s l m b Em Eb)). simpl.
  apply nth_error_nth. rewrite nth_error_map, Ec; reflexivity.
Qed.
Lemma accumulate_ok s l j x ps sum : Inv s -> l < length (wts s) -> j < nth (S l) (sizes s) O -> Forall (fun p => p < nth l (sizes s) O) ps ->
  accumulate s l j ps x sum = Ret (fold_left (fun acc i => f32add acc (f32mul (pv s l i j) (nth i x 0%N))) ps sum, s).
Proof.
  intros HI Hl Hj H; revert sum; induction H as [|p ps Hp Hps IH]; intros sum; [reflexivity|].
  cbn [accumulate fold_left]. destruct (get3_ex s l p j HI Hl Hp Hj) as [c Hc].
  rewrite (getWeight_ok s l p j c HI Hc), <- (pv_get s l p j c HI Hc). cbn [obind fst snd]. apply IH.
Qed.
Lemma Forall_seq n : Forall (fun p => p < n) (seq 0 n).
Proof. apply Forall_forall; intros p Hp; apply in_seq in Hp; lia. Qed.
Definition neuron (s : pnn) (l : nat) (x : list N) (j : nat) : N :=
  nth l (acts s) relu (fold_left (fun acc i => f32add acc (f32mul (pv s l i j) (nth i x 0%N))) (seq 0 (nth l (sizes s) O)) (pb s l j)).
Lemma neurons_ok s l x js : Inv s -> l < length (wts s) -> Forall (fun p => p < nth (S l) (sizes s) O) js ->
  neurons s l (nth l (sizes s) O) js x = Ret (map (neuron s l x) js, s).
Proof.
  intros HI Hl H; induction H as [|j js Hj Hjs IH]; [reflexivity|].
  cbn [neurons map].
  assert (Hl' : l < length (bss s)) by (rewrite (inv_b s HI), <- (inv_w s HI); exact Hl).
  destruct (get2_ex s l j HI Hl' Hj) as [c Hc].
  rewrite (getBias_ok s l j c HI Hc). cbn [obind fst snd].
  rewrite (accumulate_ok s l j x (seq 0 (nth l (sizes s) O)) (value_ c) HI Hl Hj (Forall_seq _)). cbn [obind fst snd].
  rewrite IH. cbn [obind fst snd]. unfold neuron at 2. rewrite (pb_get s l j c HI Hc). reflexivity.
Qed.
Definition layer (s : pnn) (l : nat) (x : list N) : list N := map (neuron s l x) (seq 0 (nth (S l) (sizes s) O)).

(** the layer is the one the specification gives *)
Lemma layer_dense s l x p f : Inv s -> nth_error (params s) l = Some p -> nth_error (acts s) l = Some f -> length x = nth l (sizes s) O ->
  layer s l x = dense f (fst p) (snd p) x.
Proof.
  intros HI Hp Hf Hx. unfold layer, dense.
  assert (Hlp : length (snd p) = nth (S l) (sizes s) O).
  { assert (Hl : l < length (wts s) /\ l < length (bss s)).
    { assert (l < length (params s)) by (apply nth_error_Some; congruence). unfold params in H; rewrite combine_length, !map_length in H. lia. }
    destruct (nth_error_ex (wts s) l) as [m Em]; [tauto|]. destruct (nth_error_ex (bss s) l) as [b Eb]; [tauto|].
    rewrite (nth_params s l m b Em Eb) in Hp; injection Hp as <-. simpl. rewrite map_length. apply (inv_bl s HI l b Eb). }
  rewrite Hlp, Hx. apply map_ext; intros j. unfold neuron, pv, pb.
  rewrite (nth_error_nth (params s) l ([], []) Hp), (nth_error_nth (acts s) l relu Hf). reflexivity.
Qed.
Lemma layer_length s l x : length (layer s l x) = nth (S l) (sizes s) O.
Proof. unfold layer; rewrite map_length, seq_length; reflexivity. Qed.

(** ** the whole forward pass; activations may be voted on *)
Lemma vote_balanced a rad d t : balanced t -> balanced (snd (vote_activation a rad d t)).
Proof.
  unfold vote_activation, balanced; intros H.
  repeat match goal with |- context[if ?b then _ else _] => destruct b end; simpl; lia.
Qed.
Lemma vote_all_balanced l rad d i t : balanced t -> balanced (snd (vote_all l rad d i t)).
Proof.
  revert i t; induction l as [|a l IH]; intros i t H; simpl; auto.
  pose proof (vote_balanced a rad (d i) t H) as H1. destruct (vote_activation a rad (d i) t) as [a' t1]; simpl in H1.
  pose proof (IH (S i) t1 H1) as H2. destruct (vote_all l rad d (S i) t1); exact H2.
Qed.
Lemma vote_all_length l rad d i t : length (fst (vote_all l rad d i t)) = length l.
Proof.
  revert i t; induction l as [|a l IH]; intros i t; simpl; auto.
  destruct (vote_activation a rad (d i) t) as [a' t1]. pose proof (IH (S i) t1) as H. destruct (vote_all l rad d (S i) t1); simpl in *; congruence.
Qed.
Lemma protect_shape s x rad d : exists y t, protectActivations s x rad d = (y, with_st s t) /\ length y = length x /\ (balanced (st s) -> balanced t).
Proof.
  assert (D : exists y t, (x, s) = (y, with_st s t) /\ length y = length x /\ (balanced (st s) -> balanced t)).
  { exists x, (st s); rewrite with_st_id; auto. }
  unfold protectActivations; destruct (lvl s); try exact D; destruct (fgt rad (dlit 2 10)); try exact D;
    pose proof (vote_all_length x rad d 0 (st s)) as HL; pose proof (vote_all_balanced x rad d 0 (st s)) as HB;
    destruct (vote_all x rad d 0 (st s)) as [y t]; simpl in *; exists y, t; auto.
Qed.
Lemma neurons_layer s l x : Inv s -> l < length (wts s) ->
  neurons s l (nth l (sizes s) O) (seq 0 (nth (S l) (sizes s) O)) x = Ret (layer s l x, s).
Proof. intros HI Hl; apply neurons_ok; auto using Forall_seq. Qed.
(** forward always returns, and only the statistics change *)
Lemma passes_shape s rad d n l x : Inv s -> l + n = length (wts s) -> length x = nth l (sizes s) O ->
  exists y t, passes s (seq l n) x rad d = Ret (y, with_st s t) /\ length y = nth (l + n) (sizes s) O /\ balanced t.
Proof.
  revert s l x; induction n as [|n IH]; intros s l x HI Hn Hx.
  - exists x, (st s); rewrite with_st_id, Nat.add_0_r; repeat split; auto. apply (inv_st s HI).
  - cbn [seq passes]. rewrite neurons_layer; [|exact HI|lia]. cbn [obind fst snd].
    destruct (protect_shape s (layer s l x) rad (d l)) as (y & t & E & HL & HB). rewrite E.
    assert (HI' : Inv (with_st s t)) by (apply Inv_stats; [exact HI | apply HB, (inv_st s HI)]).
    destruct (IH (with_st s t) (S l) y HI') as (y' & t' & E' & HL' & HB').
    { simpl; lia. } { rewrite HL, layer_length; reflexivity. }
    rewrite E'. exists y', t'. split; [reflexivity|]. split; [|exact HB']. replace (l + S n) with (S l + n) by lia. exact HL'.
Qed.
Lemma nth_hd (l : list nat) : nth 0 l O = hd O l. Proof. destruct l; reflexivity. Qed.
Lemma nth_last (l : list nat) d : nth (length l - 1) l d = last l d.
Proof.
  induction l as [|a [|b l] IH]; auto. cbn [length last]. replace (S (S (length l)) - 1) with (S (length (b :: l) - 1)) by (simpl; lia).
  cbn [nth]. exact IH.
Qed.
Lemma forward_shape s x rad d : Inv s -> length x = hd O (sizes s) ->
  exists y t c, forward s x rad d = Ret (y, with_counter (with_st s t) c) /\ length y = last (sizes s) O /\ balanced t.
Proof.
  intros HI Hx. unfold forward. rewrite Hx, Nat.eqb_refl. cbn [negb].
  pose proof (Inv_adapt s rad HI) as HI'. pose proof (adapt_shape s rad HI) as E.
  destruct (passes_shape _ rad d (length (wts s)) 0 x HI') as (y & t & E1 & HL & HB).
  { rewrite E; reflexivity. } { rewrite E; simpl. rewrite Hx; symmetry; apply nth_hd. }
  rewrite E1. exists y, t, (counter (adaptToRadiationLevel s rad)). split; [|split; [|exact HB]].
  - rewrite E at 1. reflexivity.
  - rewrite HL, E. simpl. rewrite (inv_w s HI). apply nth_last.
Qed.
Lemma Inv_forward s x rad d y s' : Inv s -> forward s x rad d = Ret (y, s') -> Inv s'.
Proof.
  intros HI H. destruct (Nat.eqb_spec (length x) (hd O (sizes s))) as [E|E].
  - destruct (forward_shape s x rad d HI E) as (y' & t & c & H' & _ & HB). rewrite H in H'; injection H' as -> ->.
    apply Inv_counter, Inv_stats; auto.
  - unfold forward in H. apply Nat.eqb_neq in E; rewrite E in H; discriminate.
Qed.

(** protection of activations that leaves the values alone *)
Definition transparent (s : pnn) (rad : sf) (d : nat -> nat -> act_draw) : Prop :=
  forall l x t, Forall (fun a => (a < 2 ^ 32)%N) x -> fst (protectActivations (with_st s t) x rad (d l)) = x.
Lemma skipn_cons {A} (l : list A) k x : nth_error l k = Some x -> skipn k l = x :: skipn (S k) l.
Proof. revert k; induction l as [|a l IH]; intros [|k] H; simpl in *; try discriminate; [congruence|]. apply IH in H. exact H. Qed.
Lemma passes_network s rad d n l x : Inv s -> transparent s rad d -> float_valued (acts s) -> l + n = length (wts s) -> length x = nth l (sizes s) O ->
  exists t, passes s (seq l n) x rad d = Ret (network (skipn l (params s)) (skipn l (acts s)) x, with_st s t).
Proof.
  intros HI HT HF. assert (G : forall t, balanced t -> forall l x, l + n = length (wts s) -> length x = nth l (sizes s) O ->
    exists t', passes (with_st s t) (seq l n) x rad d = Ret (network (skipn l (params s)) (skipn l (acts s)) x, with_st s t')).
  2: { intros Hn Hx. destruct (G (st s) (inv_st s HI) l x Hn Hx) as [t' E]. rewrite with_st_id in E. eauto. }
  clear l x; induction n as [|n IH]; intros t Ht l x Hn Hx.
  - exists t. cbn [seq passes]. rewrite (skipn_all2 (params s)). 2: { unfold params; rewrite combine_length, !map_length; lia. }
    reflexivity.
  - cbn [seq passes]. assert (HI' : Inv (with_st s t)) by (apply Inv_stats; auto).
    rewrite (neurons_layer (with_st s t)); [|exact HI'|simpl; lia]. cbn [obind fst snd].
    assert (Hl : l < length (params s) /\ l < length (acts s)).
    { unfold params; rewrite combine_length, !map_length, (inv_a s HI), (inv_b s HI). pose proof (inv_w s HI). lia. }
    destruct (nth_error_ex (params s) l) as [p Ep]; [tauto|]. destruct (nth_error_ex (acts s) l) as [f Ef]; [tauto|].
    assert (EL : layer (with_st s t) l x = dense f (fst p) (snd p) x) by (apply layer_dense; auto).
    destruct (protect_shape (with_st s t) (layer (with_st s t) l x) rad (d l)) as (y & t1 & E & HL & HB).
    assert (Ey : y = layer (with_st s t) l x).
    { pose proof (HT l (layer (with_st s t) l x) t) as H. rewrite E in H. apply H.
      rewrite EL. unfold dense. apply Forall_forall; intros a Ha. apply in_map_iff in Ha; destruct Ha as (j & <- & _).
      apply HF. exact (nth_error_In _ _ Ef). }
    rewrite E, (skipn_cons _ _ _ Ep), (skipn_cons _ _ _ Ef). subst y. rewrite EL. destruct p as [w b]; cbn [network fst snd].
    destruct (IH t1 (HB Ht) (S l) (dense f w b x)) as [t' E'].
    { lia. } { transitivity (length (layer (with_st s t) l x)); [rewrite EL; reflexivity | exact (layer_length (with_st s t) l x)]. }
    change (with_st (with_st s t) t1) with (with_st s t1). rewrite E'. exists t'; reflexivity.
Qed.
