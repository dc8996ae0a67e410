(** Proofs for Residual: keys and the set of connections. *)
From Coq Require Import List NArith ZArith Bool Arith Lia Permutation SpecFloat.
Import ListNotations.
From Verif Require Import Outcome Words Floats MBP_Model PNN_Model PNN_Spec PNN_Proofs PNN2_Proofs PNN3_Proofs PNN4_Proofs PNN5_Proofs Residual_Model Residual_Spec.
Local Open Scope N_scope.

(** ** decimal numbers *)
Definition dval (ds : list N) (v : N) : N := fold_left (fun v c => 10 * v + (c - 48)) ds v.
Lemma dec_spec fuel : forall n acc, n < 2 ^ N.of_nat fuel -> (0 < fuel)%nat ->
  exists ds, dec_ fuel n acc = ds ++ acc /\ ds <> [] /\ Forall (fun c => 48 <= c <= 57) ds /\ dval ds 0 = n.
Proof.
  induction fuel as [|fuel IH]; intros n acc H F; [lia|]. cbn [dec_].
  pose proof (N.mod_lt n 10 ltac:(discriminate)) as M. pose proof (N.div_mod n 10 ltac:(discriminate)) as D.
  destruct (N.eqb_spec (n / 10) 0) as [Z|Z].
  - exists [48 + n mod 10]. split; [reflexivity|]. split; [discriminate|]. split; [constructor; [lia|constructor]|]. cbn [dval fold_left]. lia.
  - assert (H2 : n / 10 < 2 ^ N.of_nat fuel).
    { rewrite Nat2N.inj_succ, N.pow_succ_r' in H. apply N.div_lt_upper_bound; lia. }
    assert (F2 : (0 < fuel)%nat). { destruct fuel; [|lia]. change (2 ^ N.of_nat 0) with 1 in H2. lia. }
    destruct (IH (n / 10) ((48 + n mod 10) :: acc) H2 F2) as (ds & E & NE & A & V).
    exists (ds ++ [48 + n mod 10]). rewrite E, <- app_assoc. split; [reflexivity|]. split; [destruct ds; discriminate|].
    split; [apply Forall_app; split; [exact A|constructor; [clear - M; set (m := n mod 10) in *; clearbody m; lia|constructor]]|].
    unfold dval in *. rewrite fold_left_app, V. cbn [fold_left]. clear - D; set (q := n / 10) in *; set (m := n mod 10) in *; clearbody q m; lia.
Qed.
Lemma to_string_spec n : exists ds, to_string n = ds /\ ds <> [] /\ Forall (fun c => 48 <= c <= 57) ds /\ dval ds 0 = n.
Proof.
  unfold to_string. destruct (dec_spec (S (N.to_nat (N.size n))) n []) as (ds & E & R); [|lia|exists ds; rewrite app_nil_r in E; auto].
  rewrite Nat2N.inj_succ, N2Nat.id, N.pow_succ_r'. pose proof (N.size_gt n). lia.
Qed.
Lemma digits_app ds : Forall (fun c => 48 <= c <= 57) ds -> forall r v b, ds <> [] -> digits (ds ++ r) v b = digits r (dval ds v) true.
Proof.
  induction 1 as [|c ds Hc H IH]; intros r v b NE; [congruence|]. cbn [app digits dval fold_left]. unfold is_digit.
  replace (48 <=? c) with true by (symmetry; apply N.leb_le; lia). replace (c <=? 57) with true by (symmetry; apply N.leb_le; lia). cbn [andb].
  destruct ds as [|c' ds]; [reflexivity|]. apply IH. discriminate.
Qed.
Lemma stoull_to_string n : n < 2 ^ 64 -> stoull (to_string n) = Ret n.
Proof.
  intros H. destruct (to_string_spec n) as (ds & -> & NE & A & V). unfold stoull.
  assert (S1 : skip_spaces ds = ds).
  { destruct ds as [|c ds]; [congruence|]. inversion A; subst. cbn [skip_spaces]. unfold is_space.
    replace (c =? 32) with false by (symmetry; apply N.eqb_neq; lia). replace (c <=? 13) with false by (symmetry; apply N.leb_gt; lia). rewrite andb_false_r. reflexivity. }
  rewrite S1. assert (D : digits ds 0 false = Some n).
  { rewrite <- (app_nil_r ds), digits_app by assumption. cbn [digits]. rewrite V. reflexivity. }
  destruct ds as [|c ds]; [congruence|]. assert (B : 48 <= c <= 57) by (inversion A; assumption).
  replace (c =? 45) with false by (symmetry; apply N.eqb_neq; lia). replace (c =? 43) with false by (symmetry; apply N.eqb_neq; lia).
  rewrite D. destruct (N.ltb_spec n (2 ^ 64)); [reflexivity|lia].
Qed.
Lemma find_arrow_key ds r : Forall (fun c => 48 <= c <= 57) ds -> find_arrow (ds ++ 45 :: 62 :: r) = Some (length ds).
Proof.
  induction 1 as [|c ds Hc H IH]; [reflexivity|]. cbn [app find_arrow length]. replace (c =? 45) with false by (symmetry; apply N.eqb_neq; lia). cbn [andb]. rewrite IH. reflexivity.
Qed.
Lemma parse_make f t : size_t f -> size_t t -> parse_key (makeConnectionKey f t) = Ret (f, t).
Proof.
  intros Hf Ht. unfold parse_key, makeConnectionKey. destruct (to_string_spec f) as (ds & E & NE & A & V).
  assert (FA : find_arrow (to_string f ++ [45; 62] ++ to_string t) = Some (length (to_string f))) by (rewrite E; apply find_arrow_key; exact A).
  rewrite FA. rewrite firstn_app, Nat.sub_diag, firstn_all, firstn_O, app_nil_r. rewrite stoull_to_string by exact Hf. cbn [obind].
  unfold substr_from. rewrite !app_length. cbn [length]. replace (Nat.ltb _ _) with false by (symmetry; apply Nat.ltb_ge; lia). cbn [obind].
  rewrite app_assoc. replace (length (to_string f) + 2)%nat with (length (to_string f ++ [45; 62])) by (rewrite app_length; reflexivity).
  rewrite skipn_app, skipn_all, Nat.sub_diag. cbn [app skipn]. rewrite stoull_to_string by exact Ht. reflexivity.
Qed.
Lemma key_inj f t f' t' : size_t f -> size_t t -> size_t f' -> size_t t' -> makeConnectionKey f t = makeConnectionKey f' t' -> f = f' /\ t = t'.
Proof.
  intros A B C D E. pose proof (parse_make f t A B) as P. rewrite E, (parse_make f' t' C D) in P. injection P as -> ->. auto.
Qed.

(** ** the map *)
Lemma str_eqb_spec a b : reflect (a = b) (str_eqb a b).
Proof. unfold str_eqb. destruct (list_eq_dec N.eq_dec a b); constructor; assumption. Qed.
Lemma str_eqb_refl a : str_eqb a a = true.
Proof. destruct (str_eqb_spec a a); congruence. Qed.
Lemma lookup_put k c l k' : lookup k' (put k c l) = if str_eqb k' k then Some c else lookup k' l.
Proof.
  induction l as [|[k0 c0] l IH]; cbn [put lookup]; [reflexivity|].
  destruct (str_eqb_spec k k0) as [<-|Hk]; cbn [lookup].
  - destruct (str_eqb k' k); reflexivity.
  - rewrite IH. destruct (str_eqb_spec k' k0) as [->|]; [|reflexivity]. destruct (str_eqb_spec k0 k); congruence.
Qed.
Lemma lookup_in k l : lookup k l = None <-> ~ In k (map fst l).
Proof.
  induction l as [|[k0 c0] l IH]; cbn [lookup map fst In]; [tauto|]. destruct (str_eqb_spec k k0) as [->|]; [split; [discriminate|intros H; exfalso; auto]|]. rewrite IH. intuition congruence.
Qed.
Lemma keys_put k c l : map fst (put k c l) = if lookup k l then map fst l else map fst l ++ [k].
Proof.
  induction l as [|[k0 c0] l IH]; cbn [put lookup map fst app]; [reflexivity|]. destruct (str_eqb_spec k k0); cbn [map fst]; [reflexivity|]. rewrite IH. destruct (lookup k l); reflexivity.
Qed.
Lemma nodup_put k c l : NoDup (map fst l) -> NoDup (map fst (put k c l)).
Proof.
  intros H. rewrite keys_put. destruct (lookup k l) eqn:E; [exact H|]. apply lookup_in in E.
  apply (Permutation_NoDup (l := k :: map fst l)); [apply Permutation_cons_append|constructor; assumption].
Qed.
Lemma lookup_erase k l k' : NoDup (map fst l) -> lookup k' (erase k l) = if str_eqb k' k then None else lookup k' l.
Proof.
  induction l as [|[k0 c0] l IH]; cbn [erase lookup map fst]; intros ND; [destruct (str_eqb k' k); reflexivity|]. inversion ND as [|? ? N1 N2]; subst.
  destruct (str_eqb_spec k k0) as [<-|Hk]; cbn [lookup].
  - destruct (str_eqb_spec k' k) as [E|E]; [rewrite E; apply lookup_in, N1|reflexivity].
  - rewrite (IH N2). destruct (str_eqb_spec k' k0) as [->|]; [|reflexivity]. destruct (str_eqb_spec k0 k); congruence.
Qed.
Lemma keys_erase k l : incl (map fst (erase k l)) (map fst l).
Proof.
  induction l as [|[k0 c0] l IH]; cbn [erase map fst]; [apply incl_refl|]. destruct (str_eqb k k0); cbn [map fst]; [apply incl_tl, incl_refl|].
  intros x [->|H]; [left; reflexivity|right; apply IH, H].
Qed.
Lemma nodup_erase k l : NoDup (map fst l) -> NoDup (map fst (erase k l)).
Proof.
  induction l as [|[k0 c0] l IH]; cbn [erase map fst]; intros ND; [constructor|]. inversion ND as [|? ? N1 N2]; subst.
  destruct (str_eqb k k0); cbn [map fst]; [exact N2|]. constructor; [intros H; apply N1, (keys_erase _ _ _ H)|apply IH, N2].
Qed.

(** ** the layer sizes never change *)
Lemma setWeight_sizes s l i j v s' : setWeight s l i j v = Ret s' -> sizes s' = sizes s.
Proof. unfold setWeight. destruct (get3 _ _ _ _); [|discriminate]. destruct (get3 _ _ _ _); [|discriminate]. intros H; injection H as <-. reflexivity. Qed.
Lemma setBias_sizes s l j v s' : setBias s l j v = Ret s' -> sizes s' = sizes s.
Proof. unfold setBias. destruct (get2 _ _ _); [|discriminate]. destruct (get2 _ _ _); [|discriminate]. intros H; injection H as <-. reflexivity. Qed.
Lemma set_row_sizes row : forall s l i j s', set_row s l i j row = Ret s' -> sizes s' = sizes s.
Proof.
  induction row as [|v row IH]; intros s l i j s' H; cbn [set_row] in H; [congruence|]. apply obind_ret in H. destruct H as (s1 & H1 & H). rewrite (IH _ _ _ _ _ H). eapply setWeight_sizes, H1.
Qed.
Lemma set_rows_sizes m : forall s l i n r, set_rows s l i n m = Ret r -> sizes (fst r) = sizes s.
Proof.
  induction m as [|row m IH]; intros s l i n r H; cbn [set_rows] in H; [injection H as <-; reflexivity|]. destruct (negb _); [injection H as <-; reflexivity|].
  apply obind_ret in H. destruct H as (s1 & H1 & H). rewrite (IH _ _ _ _ _ H). eapply set_row_sizes, H1.
Qed.
Lemma set_biases_sizes b : forall s l j s', set_biases s l j b = Ret s' -> sizes s' = sizes s.
Proof.
  induction b as [|v b IH]; intros s l j s' H; cbn [set_biases] in H; [congruence|]. apply obind_ret in H. destruct H as (s1 & H1 & H). rewrite (IH _ _ _ _ H). eapply setBias_sizes, H1.
Qed.
Lemma step_keeps s o s' : Inv s -> step s o = Ret s' -> sizes s' = sizes s.
Proof.
  intros HI H. destruct o; cbn [step] in H.
  - destruct (forward s x rad d) as [[y s1]|u|e|] eqn:E; cbn [obind snd] in H; try discriminate; injection H as <-; [|reflexivity].
    destruct (Nat.eqb_spec (length x) (hd O (sizes s))) as [Ex|Ex].
    + destruct (forward_shape s x rad d HI Ex) as (y' & t' & c' & H' & _ & _). rewrite E in H'; injection H' as _ ->. reflexivity.
    + unfold forward in E. apply Nat.eqb_neq in Ex; rewrite Ex in E; discriminate.
  - apply obind_ret in H; destruct H as (r & H1 & H); injection H as <-. unfold setLayerWeights in H1. destruct (Nat.leb _ _); [injection H1 as <-; reflexivity|]. destruct (negb _); [injection H1 as <-; reflexivity|]. eapply set_rows_sizes, H1.
  - apply obind_ret in H; destruct H as (r & H1 & H); injection H as <-. unfold setLayerBiases in H1. destruct (Nat.leb _ _); [injection H1 as <-; reflexivity|]. destruct (negb _); [injection H1 as <-; reflexivity|].
    apply obind_ret in H1; destruct H1 as (s1 & H1 & H2); injection H2 as <-. eapply set_biases_sizes, H1.
  - unfold setActivationFunction in H. destruct (Nat.leb _ _); injection H as <-; reflexivity.
  - destruct (radiation_confined _ _ _ _ _ HI H) as ((A1 & _) & _). exact A1.
  - injection H as <-. reflexivity.
  - destruct (train s data labels epochs 0%N) as [[y s1]|u|e|] eqn:E; cbn [obind snd] in H; try discriminate; injection H as <-; [|reflexivity].
    destruct (train_inv _ _ _ _ _ _ HI E) as (c & t & E' & _). cbn [snd] in E'; subst s1. reflexivity.
  - injection H as <-. reflexivity.
Qed.
(* a forward pass of the base *)
Lemma fwd_base s x rad d y s' : Inv s -> forward s x rad d = Ret (y, s') -> Inv s' /\ params s' = params s /\ acts s' = acts s /\ sizes s' = sizes s /\ mirror s' = mirror s /\ lvl s' = lvl s.
Proof.
  intros HI E. split; [exact (Inv_forward _ _ _ _ _ _ HI E)|]. destruct (Nat.eqb_spec (length x) (hd O (sizes s))) as [Ex|Ex].
  + destruct (forward_shape s x rad d HI Ex) as (y' & t' & c' & H' & _ & _). rewrite E in H'; injection H' as _ ->. repeat split; reflexivity.
  + unfold forward in E. apply Nat.eqb_neq in Ex; rewrite Ex in E; discriminate.
Qed.
Definition still (s s' : rnn) : Prop := Inv (base s') /\ conns s' = conns s /\ params (base s') = params (base s) /\ acts (base s') = acts (base s) /\ sizes (base s') = sizes (base s) /\ mirror (base s') = mirror (base s) /\ lvl (base s') = lvl (base s).
Lemma still_refl s : Inv (base s) -> still s s.
Proof. intros H. split; [exact H|]. repeat split. Qed.
Lemma still_trans a b c : still a b -> still b c -> still a c.
Proof. intros (A1 & A2 & A3 & A4 & A5 & A6 & A7) (B1 & B2 & B3 & B4 & B5 & B6 & B7). split; [exact B1|]. repeat split; congruence. Qed.
Lemma rforward_still s x rad d y s' : Inv (base s) -> rforward s x rad d = Ret (y, s') -> still s s'.
Proof.
  intros HI H. unfold rforward in H. apply obind_ret in H. destruct H as ([y1 b1] & H1 & H). cbn [fst snd] in H. injection H as <- <-.
  destruct (fwd_base _ _ _ _ _ _ HI H1) as (A & B & C & D & E & F). split; [exact A|]. cbn [conns base]. repeat (split; [first [reflexivity|assumption]|]). assumption.
Qed.
Lemma rloss_still s x y l s' : Inv (base s) -> rcalculateLoss s x y = Ret (l, s') -> still s s'.
Proof.
  intros HI H. unfold rcalculateLoss in H. apply obind_ret in H. destruct H as ([o s1] & H1 & H). cbn [fst snd] in H. injection H as _ <-. eapply rforward_still; eauto.
Qed.
Lemma rtrain_still x y e : forall s l r, Inv (base s) -> rtrain_ s x y e l = Ret r -> still s (snd r).
Proof.
  induction e as [|e IH]; intros s l r HI H; cbn [rtrain_] in H; [injection H as <-; apply still_refl, HI|].
  apply obind_ret in H. destruct H as ([l1 s1] & H1 & H). pose proof (rloss_still _ _ _ _ _ HI H1) as S1. eapply still_trans; [exact S1|]. eapply IH; [apply S1|exact H].
Qed.

(** ** histories *)
Definition keyed (n : N) (l : list (str * conn)) (on : N -> N -> bool) : Prop :=
  NoDup (map fst l) /\ (forall k, In k (map fst l) -> exists f t, k = makeConnectionKey f t /\ f < t /\ t < n) /\
  (forall f t, size_t f -> size_t t -> (lookup (makeConnectionKey f t) l <> None <-> on f t = true)).
Lemma keyed_ext n l on on' : (forall f t, on f t = on' f t) -> keyed n l on -> keyed n l on'.
Proof. intros E (A & B & C). split; [exact A|]. split; [exact B|]. intros f t Hf Ht. rewrite <- E. apply C; assumption. Qed.
Lemma keyed_same_keys n l l' on : map fst l' = map fst l -> keyed n l on -> keyed n l' on.
Proof.
  intros E (A & B & C). unfold keyed. rewrite E. split; [exact A|]. split; [exact B|]. intros f t Hf Ht. rewrite <- (C f t Hf Ht).
  assert (Q : lookup (makeConnectionKey f t) l' = None <-> lookup (makeConnectionKey f t) l = None) by (rewrite !lookup_in, E; tauto). tauto.
Qed.
Lemma key_eqb f t f' t' : size_t f -> size_t t -> size_t f' -> size_t t' -> str_eqb (makeConnectionKey f t) (makeConnectionKey f' t') = (f' =? f) && (t' =? t).
Proof.
  intros A B C D. destruct (str_eqb_spec (makeConnectionKey f t) (makeConnectionKey f' t')) as [E|E].
  - destruct (key_inj _ _ _ _ A B C D E) as [-> ->]. rewrite !N.eqb_refl. reflexivity.
  - destruct (N.eqb_spec f' f) as [->|]; [|reflexivity]. destruct (N.eqb_spec t' t) as [->|]; [congruence|reflexivity].
Qed.
Lemma sizet_lt n f t : n <= 2 ^ 64 -> f < t -> t < n -> size_t f /\ size_t t.
Proof. unfold size_t. lia. Qed.
Lemma add_valid s f t : 0 < getLayerCount s -> getLayerCount s < 2 ^ 64 ->
  addSkipConnection s f t = if (f <? t) && (t <? getLayerCount s) then (true, mkRNN (base s) (put (makeConnectionKey f t) new_conn (conns s))) else (false, s).
Proof.
  intros H1 H2. unfold addSkipConnection. set (n := getLayerCount s) in *. cbn zeta.
  assert (W : wrap 64 (n + 2 ^ 64 - 1) = n - 1).
  { unfold wrap. replace (n + 2 ^ 64 - 1) with (n - 1 + 1 * 2 ^ 64) by lia. rewrite N.mod_add by discriminate. apply N.mod_small. lia. }
  rewrite W. destruct (N.ltb_spec f t) as [A|A]; cbn [andb].
  - destruct (N.ltb_spec t n) as [B|B].
    + replace (n - 1 <=? f) with false by (symmetry; apply N.leb_gt; lia). replace (n <=? t) with false by (symmetry; apply N.leb_gt; lia). replace (t <=? f) with false by (symmetry; apply N.leb_gt; lia). reflexivity.
    + replace (n <=? t) with true by (symmetry; apply N.leb_le; lia). rewrite orb_true_r. reflexivity.
  - destruct (_ || _); [reflexivity|]. replace (t <=? f) with true by (symmetry; apply N.leb_le; lia). reflexivity.
Qed.
Definition onstep (n : N) (on : N -> N -> bool) (o : rop) (f t : N) : bool :=
  match o with
  | RAdd f' t' => if (f' =? f) && (t' =? t) && (f <? t) && (t <? n) then true else on f t
  | RRemove f' t' => if (f' =? f) && (t' =? t) then false else on f t
  | _ => on f t
  end.
Lemma rstep_keyed s o s' on : Inv (base s) -> getLayerCount s < 2 ^ 64 -> size_args o -> keyed (getLayerCount s) (conns s) on -> rstep s o = Ret s' ->
  Inv (base s') /\ sizes (base s') = sizes (base s) /\ keyed (getLayerCount s) (conns s') (onstep (getLayerCount s) on o).
Proof.
  intros HI HC HA HK H. assert (P : 0 < getLayerCount s) by (unfold getLayerCount; pose proof (inv_len _ HI); lia).
  set (n := getLayerCount s) in *.
  destruct o as [o|f t|f t|f t p|z a d|x rad d|x y e]; cbn [rstep onstep size_args] in *.
  - apply obind_ret in H. destruct H as (b & H1 & H). injection H as <-. cbn [base conns]. split; [exact (Inv_step _ _ _ HI H1)|]. split; [exact (step_keeps _ _ _ HI H1)|exact HK].
  - injection H as <-. rewrite add_valid by assumption. fold n. destruct HA as [Af At]. destruct (N.ltb_spec f t) as [Lft|Lft]; cbn [andb].
    + destruct (N.ltb_spec t n) as [Ltn|Ltn]; cbn [snd base conns].
      * split; [exact HI|]. split; [reflexivity|]. destruct HK as (K1 & K2 & K3). split; [apply nodup_put, K1|]. split.
        { intros k Hk. rewrite keys_put in Hk. destruct (lookup _ _); [apply K2, Hk|]. apply in_app_or in Hk. destruct Hk as [Hk|[<-|[]]]; [apply K2, Hk|]. exists f, t. auto. }
        { intros f' t' Hf Ht. rewrite lookup_put, key_eqb by assumption. cbn [onstep]. destruct (N.eqb_spec f f') as [<-|]; cbn [andb]; [|apply K3; assumption]. destruct (N.eqb_spec t t') as [<-|]; cbn [andb]; [|apply K3; assumption].
          replace (f <? t) with true by (symmetry; apply N.ltb_lt; lia). replace (t <? n) with true by (symmetry; apply N.ltb_lt; lia). split; [reflexivity|discriminate]. }
      * split; [exact HI|]. split; [reflexivity|]. eapply keyed_ext; [|exact HK]. intros f' t'. cbn [onstep].
        destruct (N.eqb_spec f f'), (N.eqb_spec t t'); subst; cbn [andb]; try reflexivity. replace (t' <? n) with false by (symmetry; apply N.ltb_ge; lia). rewrite andb_false_r. reflexivity.
    + cbn [snd base conns]. split; [exact HI|]. split; [reflexivity|]. eapply keyed_ext; [|exact HK]. intros f' t'. cbn [onstep].
      destruct (N.eqb_spec f f'), (N.eqb_spec t t'); subst; cbn [andb]; try reflexivity. replace (f' <? t') with false by (symmetry; apply N.ltb_ge; lia). reflexivity.
  - injection H as <-. destruct HA as [Af At]. unfold removeSkipConnection. destruct HK as (K1 & K2 & K3). destruct (lookup (makeConnectionKey f t) (conns s)) eqn:E; cbn [snd base conns].
    + split; [exact HI|]. split; [reflexivity|]. split; [apply nodup_erase, K1|]. split; [intros k Hk; apply K2, (keys_erase _ _ _ Hk)|].
      intros f' t' Hf Ht. rewrite lookup_erase, key_eqb by assumption. cbn [onstep]. destruct ((f =? f') && (t =? t')); [split; [congruence|discriminate]|apply K3; assumption].
    + split; [exact HI|]. split; [reflexivity|]. apply (keyed_ext n (conns s) on); [|split; auto]. intros f' t'. cbn [onstep].
      destruct (N.eqb_spec f f') as [<-|]; cbn [andb]; [|reflexivity]. destruct (N.eqb_spec t t') as [<-|]; cbn [andb]; [|reflexivity].
      destruct (on f t) eqn:O; [|reflexivity]. apply (K3 f t Af At) in O. congruence.
  - injection H as <-. unfold setSkipProjection. destruct (lookup _ _) eqn:E; [|auto]. cbn [base conns]. split; [exact HI|]. split; [reflexivity|].
    eapply keyed_same_keys; [|exact HK]. rewrite keys_put, E. reflexivity.
  - injection H as <-. auto.
  - destruct (rforward s x rad d) as [[y s1]|u|u|] eqn:E; try discriminate; injection H as <-; [|auto]. destruct (rforward_still _ _ _ _ _ _ HI E) as (A & B & _ & _ & C & _). cbn [snd]. rewrite B. auto.
  - unfold rtrain in H. destruct (rtrain_ s x y (Z.to_nat e) 0) as [r|u|u|] eqn:E; try discriminate; injection H as <-; [|auto]. destruct (rtrain_still _ _ _ _ _ _ HI E) as (A & B & _ & _ & C & _). cbn [snd]. rewrite B. auto.
Qed.
Lemma connected_step n ops o f t : connected n (ops ++ [o]) f t = onstep n (connected n ops) o f t.
Proof. unfold connected. rewrite fold_left_app. destruct o; reflexivity. Qed.
Lemma rrun_keyed ops : forall done s s', Inv (base s) -> getLayerCount s < 2 ^ 64 -> Forall size_args ops -> keyed (getLayerCount s) (conns s) (connected (getLayerCount s) done) -> rrun s ops = Ret s' ->
  Inv (base s') /\ sizes (base s') = sizes (base s) /\ keyed (getLayerCount s) (conns s') (connected (getLayerCount s) (done ++ ops)).
Proof.
  induction ops as [|o ops IH]; intros done s s' HI HC HA HK H; cbn [rrun] in H.
  - injection H as <-. rewrite app_nil_r. auto.
  - apply obind_ret in H. destruct H as (s1 & H1 & H). inversion HA as [|? ? A1 A2]; subst. destruct (rstep_keyed _ _ _ _ HI HC A1 HK H1) as (I1 & E1 & K1).
    assert (C1 : getLayerCount s1 = getLayerCount s) by (unfold getLayerCount; rewrite E1; reflexivity).
    destruct (IH (done ++ [o]) s1 s' I1) as (A & B & C); [rewrite C1; exact HC|exact A2| |exact H|].
    + rewrite C1. eapply keyed_ext; [|exact K1]. intros f t. symmetry. apply connected_step.
    + rewrite C1, <- app_assoc in C. split; [exact A|]. split; [congruence|exact C].
Qed.
Lemma rnn_new_inv ls lv init s : rnn_new ls lv init = Ret s -> Inv (base s) /\ sizes (base s) = ls /\ conns s = [].
Proof.
  unfold rnn_new. intros H. apply obind_ret in H. destruct H as (b & H1 & H). injection H as <-. cbn [base conns]. split; [exact (Inv_new _ _ _ _ H1)|]. split; [|reflexivity].
  unfold pnn_new in H1. destruct (Nat.ltb _ _); [discriminate|]. destruct (existsb _ _); [discriminate|]. injection H1 as <-. reflexivity.
Qed.
Lemma history ls lv init s0 ops s : rnn_new ls lv init = Ret s0 -> N.of_nat (length ls) < 2 ^ 64 -> Forall size_args ops -> rrun s0 ops = Ret s ->
  Inv (base s) /\ sizes (base s) = ls /\ keyed (N.of_nat (length ls)) (conns s) (connected (N.of_nat (length ls)) ops).
Proof.
  intros H HL HA HR. destruct (rnn_new_inv _ _ _ _ H) as (I & E & C). assert (G : getLayerCount s0 = N.of_nat (length ls)) by (unfold getLayerCount; rewrite E; reflexivity).
  destruct (rrun_keyed ops [] s0 s I) as (A & B & D); [rewrite G; exact HL|exact HA| |exact HR|].
  - rewrite C. split; [constructor|]. split; [intros k []|]. intros f t _ _. cbn. split; [congruence|discriminate].
  - rewrite G in D. split; [exact A|]. split; [congruence|exact D].
Qed.

(** ** reading the connections *)
Lemma gets_keys it n : (forall k, In k (map fst it) -> exists f t, k = makeConnectionKey f t /\ f < t /\ t < n) -> n <= 2 ^ 64 ->
  exists ps, getSkipConnections it = Ret ps /\ map (fun p => makeConnectionKey (fst p) (snd p)) ps = map fst it /\ Forall (fun p => fst p < snd p /\ snd p < n) ps.
Proof.
  intros H Hn. induction it as [|[k c] it IH]; cbn [getSkipConnections map fst].
  - exists []. repeat split; constructor.
  - destruct (H k) as (f & t & -> & L1 & L2); [left; reflexivity|]. destruct (sizet_lt n f t Hn L1 L2) as [Sf St]. rewrite parse_make by assumption. cbn [obind].
    destruct IH as (ps & -> & E & F); [intros k Hk; apply H; right; exact Hk|]. exists ((f, t) :: ps). split; [reflexivity|]. cbn [map fst snd]. split; [f_equal; exact E|constructor; [split; assumption|exact F]].
Qed.
Lemma connections it s n on : Permutation (conns s) it -> n <= 2 ^ 64 -> keyed n (conns s) on ->
  exists ps, getSkipConnections it = Ret ps /\ N.of_nat (length ps) = getSkipConnectionCount s /\ NoDup ps /\ (forall f t, In (f, t) ps <-> (on f t = true /\ size_t f /\ size_t t)).
Proof.
  intros HP Hn (K1 & K2 & K3). assert (HM : Permutation (map fst (conns s)) (map fst it)) by (apply Permutation_map, HP).
  destruct (gets_keys it n) as (ps & E & M & F); [intros k Hk; apply K2; eapply Permutation_in; [apply Permutation_sym, HM|exact Hk]|exact Hn|].
  exists ps. split; [exact E|]. split. { unfold getSkipConnectionCount. rewrite (Permutation_length HP). f_equal. rewrite <- (map_length fst it), <- M, map_length. reflexivity. }
  split. { apply (NoDup_map_inv (fun p => makeConnectionKey (fst p) (snd p))). rewrite M. eapply Permutation_NoDup; eassumption. }
  rewrite Forall_forall in F. intros f t. split.
  - intros Hin. destruct (F _ Hin) as [A B]. cbn [fst snd] in *. destruct (sizet_lt n f t Hn A B) as [Sf St]. split; [|auto]. apply (K3 f t Sf St). rewrite lookup_in. intros N1. apply N1.
    eapply Permutation_in; [apply Permutation_sym, HM|]. rewrite <- M. apply (in_map (fun p => makeConnectionKey (fst p) (snd p)) ps (f, t)), Hin.
  - intros (O & Sf & St). apply (K3 f t Sf St) in O.
    destruct (in_dec (list_eq_dec N.eq_dec) (makeConnectionKey f t) (map fst it)) as [I|I].
    + rewrite <- M in I. apply in_map_iff in I. destruct I as ([f' t'] & Ek & Hin). destruct (F _ Hin) as [A B]. cbn [fst snd] in *. destruct (sizet_lt n f' t' Hn A B) as [Sf' St'].
      destruct (key_inj _ _ _ _ Sf' St' Sf St Ek) as [-> ->]. exact Hin.
    + exfalso. apply O, lookup_in. intros Q. apply I. eapply Permutation_in; eassumption.
Qed.
