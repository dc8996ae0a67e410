(** The autoencoder: invariant, what calls change. *)
From Coq Require Import List NArith ZArith Bool Arith Lia SpecFloat.
Import ListNotations.
From Verif Require Import Outcome Words Arith Floats Bits_Model MBP_Model PNN_Model PNN_Spec PNN_Proofs PNN2_Proofs PNN3_Proofs PNN4_Proofs PNN5_Proofs Residual_Model Vae_Model Vae_Spec.
Local Open Scope nat_scope.
Local Open Scope outcome_scope.

(** ** lists *)
Lemma omap_ret {A B} (f : A -> outcome B) l r : omap f l = Ret r -> Forall2 (fun x y => f x = Ret y) l r.
Proof.
  revert r; induction l as [|x l IH]; intros r H; cbn [omap] in H; [injection H as <-; constructor|].
  apply obind_ret in H; destruct H as (y & H1 & H). apply obind_ret in H; destruct H as (r' & H2 & H). injection H as <-. constructor; auto.
Qed.
Lemma omap_ok {A B} (f : A -> outcome B) (g : A -> B) l : (forall x, In x l -> f x = Ret (g x)) -> omap f l = Ret (map g l).
Proof.
  induction l as [|x l IH]; intros H; [reflexivity|]. cbn [omap map]. rewrite H by (left; reflexivity). cbn [obind].
  rewrite IH by (intros; apply H; right; assumption). reflexivity.
Qed.
Lemma omap_length {A B} (f : A -> outcome B) l r : omap f l = Ret r -> length r = length l.
Proof. intros H. apply omap_ret in H. induction H; [reflexivity|]. cbn [length]. f_equal. assumption. Qed.
Lemma omap_ub {A B} (f : A -> outcome B) l u : (exists x, In x l /\ f x = UB u) -> (forall x, In x l -> (exists y, f x = Ret y) \/ f x = UB u) -> omap f l = UB u.
Proof.
  induction l as [|x l IH]; intros (y & Hy & E) H; [destruct Hy|]. cbn [omap].
  destruct (H x (or_introl eq_refl)) as [[z Ez]|Ez]; [|rewrite Ez; reflexivity]. rewrite Ez; cbn [obind].
  destruct Hy as [->|Hy]; [congruence|]. rewrite IH; [reflexivity|eauto|intros; apply H; right; assumption].
Qed.
Lemma ofold_inv {A B} (P : B -> Prop) (Q : B -> B -> Prop) (f : B -> A -> outcome B) :
  (forall b, Q b b) -> (forall a b c, Q a b -> Q b c -> Q a c) -> (forall b x b', P b -> f b x = Ret b' -> Q b b' /\ P b') ->
  forall l b b', P b -> ofold f l b = Ret b' -> Q b b' /\ P b'.
Proof.
  intros QR QT S1 l; induction l as [|x l IH]; intros b b' Pb H; cbn [ofold] in H; [injection H as <-; auto|].
  apply obind_ret in H; destruct H as (b1 & H1 & H). destruct (S1 _ _ _ Pb H1) as [Q1 P1]. destruct (IH _ _ P1 H) as [Q2 P2]. split; eauto.
Qed.
Lemma ofold_ok {A B} (P : B -> Prop) (f : B -> A -> outcome B) l :
  forall b, P b -> (forall b x, In x l -> P b -> exists b', f b x = Ret b' /\ P b') -> exists b', ofold f l b = Ret b' /\ P b'.
Proof.
  induction l as [|x l IH]; intros b Pb H; cbn [ofold]; [eauto|]. destruct (H b x (or_introl eq_refl) Pb) as (b1 & E & P1). rewrite E; cbn [obind].
  apply IH; auto. intros; apply H; auto; right; assumption.
Qed.
Lemma ofold_ret_fold {A B} (f : B -> A -> outcome B) (g : B -> A -> B) l : forall b, (forall b x, In x l -> f b x = Ret (g b x)) -> ofold f l b = Ret (fold_left g l b).
Proof.
  induction l as [|x l IH]; intros b H; [reflexivity|]. cbn [ofold fold_left]. rewrite H by (left; reflexivity). cbn [obind]. apply IH. intros; apply H; right; assumption.
Qed.
Lemma at_ok {A} (l : list A) i d : i < length l -> at_ l i = Ret (nth i l d).
Proof. intros H. unfold at_. rewrite (nth_error_nth' l d H). reflexivity. Qed.
Lemma at_ub {A} (l : list A) i : length l <= i -> at_ l i = UB UB_array_index.
Proof. intros H. unfold at_. apply nth_error_None in H. rewrite H. reflexivity. Qed.
Lemma at_ret {A} (l : list A) i x : at_ l i = Ret x -> nth_error l i = Some x.
Proof. unfold at_. destruct (nth_error l i); congruence. Qed.
Lemma at_case {A} (l : list A) i : (exists x, at_ l i = Ret x /\ nth_error l i = Some x) \/ (at_ l i = UB UB_array_index /\ length l <= i).
Proof. unfold at_. destruct (nth_error l i) eqn:E; [left; eauto|right]. split; [reflexivity|]. apply nth_error_None, E. Qed.

(** ** construction *)
Lemma set_act s l f : Inv s -> l < length (sizes s) - 1 ->
  setActivationFunction s l f = Ret (mkPNN (sizes s) (lvl s) (counter s) (wts s) (bss s) (upd (acts s) l (fun _ => f)) (mirror s) (st s)).
Proof. intros HI H. unfold setActivationFunction. rewrite (inv_a s HI). apply Nat.leb_gt in H. rewrite H. reflexivity. Qed.
Lemma Inv_act s a : Inv s -> length a = length (acts s) -> Inv (mkPNN (sizes s) (lvl s) (counter s) (wts s) (bss s) a (mirror s) (st s)).
Proof. intros [H1 H2 H3 H4 H5 H6 H7] E; constructor; try assumption. simpl. congruence. Qed.
Definition with_acts (s : pnn) (a : list (N -> N)) : pnn := mkPNN (sizes s) (lvl s) (counter s) (wts s) (bss s) a (mirror s) (st s).
Lemma upd_app {A} (l r : list A) f k : forall x, k = length l -> upd (l ++ x :: r) k f = l ++ f x :: r.
Proof. intros x ->. induction l as [|y l IH]; simpl; [reflexivity|]. rewrite IH. reflexivity. Qed.
Lemma set_acts_all h s n : Inv s -> n <= length (sizes s) - 1 -> forall k, k <= n ->
  ofold (fun s i => setActivationFunction s i h) (seq (n - k) k) (with_acts s (repeat h (n - k) ++ skipn (n - k) (acts s))) =
  Ret (with_acts s (repeat h n ++ skipn n (acts s))).
Proof.
  intros HI Hn; induction k as [|k IH]; intros Hk.
  - cbn [seq ofold]. rewrite Nat.sub_0_r. reflexivity.
  - cbn [seq ofold]. replace (S (n - S k)) with (n - k) by lia.
    destruct (nth_error_ex (acts s) (n - S k)) as [g Eg]; [rewrite (inv_a s HI); lia|].
    rewrite set_act.
    + cbn [obind with_acts sizes lvl counter wts bss acts mirror st]. rewrite <- IH by lia. unfold with_acts. do 2 f_equal.
      rewrite (skipn_cons _ _ _ Eg). rewrite upd_app by (rewrite repeat_length; reflexivity).
      replace (n - k) with (S (n - S k)) by lia. cbn [repeat]. rewrite repeat_cons, <- app_assoc. reflexivity.
    + apply Inv_act; [exact HI|]. rewrite app_length, repeat_length, skipn_length, (inv_a s HI). lia.
    + cbn [with_acts sizes]. lia.
Qed.
Lemma activate_ok s h o : Inv s -> activate s h o = Ret (with_acts s (repeat h (length (sizes s) - 2) ++ [o])).
Proof.
  intros HI. pose proof (inv_len s HI) as HL. unfold activate. set (n := length (sizes s) - 2) in *.
  pose proof (set_acts_all h s n HI ltac:(lia) n ltac:(lia)) as E. rewrite Nat.sub_diag in E. cbn [repeat app skipn] in E.
  replace (with_acts s (acts s)) with s in E by (destruct s; reflexivity). rewrite E; cbn [obind].
  destruct (nth_error_ex (acts s) n) as [g Eg]; [rewrite (inv_a s HI); lia|].
  rewrite set_act.
  - cbn [with_acts sizes lvl counter wts bss acts mirror st]. unfold with_acts. do 2 f_equal. rewrite (skipn_cons _ _ _ Eg).
    rewrite upd_app by (rewrite repeat_length; reflexivity). f_equal. f_equal. apply skipn_all2. rewrite (inv_a s HI). lia.
  - apply Inv_act; [exact HI|]. rewrite app_length, repeat_length, skipn_length, (inv_a s HI). lia.
  - cbn [with_acts sizes]. lia.
Qed.
Lemma pnn_new_sizes ls lv init s : pnn_new ls lv init = Ret s -> sizes s = ls /\ lvl s = lv /\ st s = mkStats 0 0 0 /\ counter s = 0%N.
Proof. unfold pnn_new. destruct (Nat.ltb _ _); [discriminate|]. destruct (existsb _ _); [discriminate|]. intros H; injection H as <-. repeat split. Qed.
(** a network of the autoencoder *)
Record net (s : pnn) (ls : list nat) (lv : plevel) (h o : N -> N) : Prop := {
  n_inv : Inv s; n_sizes : sizes s = ls; n_lvl : lvl s = lv; n_acts : acts s = repeat h (length ls - 2) ++ [o] }.
Lemma new_net ls lv init h o s : (q <- pnn_new ls lv init ;; activate q h o) = Ret s -> net s ls lv h o /\ st s = mkStats 0 0 0.
Proof.
  intros H. apply obind_ret in H; destruct H as (q & H1 & H). pose proof (Inv_new _ _ _ _ H1) as HI. destruct (pnn_new_sizes _ _ _ _ H1) as (Z1 & Z2 & Z3 & _).
  rewrite (activate_ok q h o HI) in H. injection H as <-. split; [|exact Z3]. constructor; cbn [with_acts sizes lvl acts]; try assumption; try congruence.
  apply Inv_act; [exact HI|]. rewrite app_length, repeat_length, (inv_a q HI). pose proof (inv_len q HI). cbn [length]. lia.
Qed.
Lemma new_net_ok ls lv init h o : 2 <= length ls -> no_double_zero ls -> exists s, (q <- pnn_new ls lv init ;; activate q h o) = Ret s.
Proof.
  intros HL HZ. assert (E : exists q, pnn_new ls lv init = Ret q).
  { unfold pnn_new. destruct (Nat.ltb_spec (length ls) 2); [lia|]. destruct (existsb _ _) eqn:E; [exfalso|eauto]. clear HL.
    apply existsb_exists in E; destruct E as (p & Hp & E). apply Nat.eqb_eq in E. revert Hp HZ. clear H.
    induction ls as [|a [|b ls] IH]; intros Hp HZ; [destruct Hp|destruct Hp|]. cbn [pairs] in Hp. destruct HZ as [H1 H2].
    destruct Hp as [<-|Hp]; [cbn in E, H1; lia|]. apply IH; assumption. }
  destruct E as [q E]. rewrite E; cbn [obind]. rewrite (activate_ok q h o (Inv_new _ _ _ _ E)). eauto.
Qed.

Section V.
Variables (expf logf tanhf : sf -> sf) (gauss : N -> nat -> N) (pgauss : N -> nat -> N -> N -> N).
Definition enc_sizes (v : vae) := input_dim v :: hidden v ++ [2 * latent_dim v].
Definition dec_sizes (v : vae) := latent_dim v :: rev (hidden v) ++ [input_dim v].
Definition itp_sizes (v : vae) := [2 * latent_dim v; match hidden v with [] => latent_dim v | _ => nth (Nat.div (length (hidden v)) 2) (hidden v) O end; latent_dim v].
Record VInv (v : vae) : Prop := {
  v_enc : net (enc v) (enc_sizes v) (vlevel v) leaky linear;
  v_dec : net (dec v) (dec_sizes v) (vlevel v) leaky (sigmoid expf);
  v_itp : net (itp v) (itp_sizes v) (vlevel v) (tanh32 tanhf) linear;
  v_own : detected (own v) = corrected (own v);
  v_dir : c_dir (vcf v) = self v }.
Lemma VInv_new addr inp lat hid lv c i1 i2 i3 v : vae_new expf tanhf addr inp lat hid lv c i1 i2 i3 = Ret v ->
  VInv v /\ (input_dim v, latent_dim v, hidden v, vlevel v, vcf v, self v) = (inp, lat, hid, lv, owned c addr, addr) /\ own v = mkStats 0 0 0 /\
  (st (enc v), st (dec v), st (itp v)) = (mkStats 0 0 0, mkStats 0 0 0, mkStats 0 0 0).
Proof.
  unfold vae_new, initializeEncoder, initializeDecoder, initializeInterpolator. intros H.
  apply obind_ret in H; destruct H as (e & H1 & H). apply obind_ret in H; destruct H as (d & H2 & H). apply obind_ret in H; destruct H as (i & H3 & H).
  apply new_net in H1, H2, H3. destruct H1 as [N1 T1], H2 as [N2 T2], H3 as [N3 T3].
  injection H as <-. split; [|split; [reflexivity|split; [reflexivity|cbn [enc dec itp]; congruence]]].
  constructor; cbn [enc dec itp vlevel own vcf self owned c_dir input_dim latent_dim hidden]; auto.
Qed.

(** ** what a call changes *)
Definition counted (s s' : pnn) : Prop := exists c, s' = with_counter s c.
Lemma counted_refl s : counted s s. Proof. exists (counter s). destruct s; reflexivity. Qed.
Lemma counted_trans a b c : counted a b -> counted b c -> counted a c.
Proof. intros [x ->] [y ->]. exists y. reflexivity. Qed.
(* the networks' weights and statistics, the dimensions and options stay *)
Record quiet (v w : vae) : Prop := {
  q_enc : counted (enc v) (enc w); q_dec : counted (dec v) (dec w); q_itp : counted (itp v) (itp w);
  q_rest : (self w, input_dim w, latent_dim w, hidden w, vlevel w, vcf w, own w) = (self v, input_dim v, latent_dim v, hidden v, vlevel v, vcf v, own v) }.
Lemma quiet_refl v : quiet v v. Proof. constructor; try apply counted_refl. reflexivity. Qed.
Lemma quiet_trans a b c : quiet a b -> quiet b c -> quiet a c.
Proof. intros [A1 A2 A3 A4] [B1 B2 B3 B4]. constructor; try (eapply counted_trans; eassumption). congruence. Qed.
Lemma net_counted s s' ls lv h o : counted s s' -> net s ls lv h o -> net s' ls lv h o.
Proof. intros [c ->] [H1 H2 H3 H4]. constructor; try assumption. apply Inv_counter, H1. Qed.
Lemma VInv_quiet v w : quiet v w -> VInv v -> VInv w.
Proof.
  intros [A1 A2 A3 A4] [B1 B2 B3 B4 B5]. injection A4 as E1 E2 E3 E4 E5 E6 E7. unfold enc_sizes, dec_sizes, itp_sizes in *.
  constructor; unfold enc_sizes, dec_sizes, itp_sizes; rewrite ?E1, ?E2, ?E3, ?E4, ?E5, ?E6, ?E7; try assumption; eapply net_counted; eassumption.
Qed.
(* the same without the statistics *)
Definition counted' (s s' : pnn) : Prop := exists c t, s' = with_counter (with_st s t) c /\ balanced t.
Record mild (v w : vae) : Prop := {
  m_enc : counted' (enc v) (enc w); m_dec : counted' (dec v) (dec w); m_itp : counted' (itp v) (itp w);
  m_own : detected (own v) = corrected (own v) -> detected (own w) = corrected (own w);
  m_rest : (self w, input_dim w, latent_dim w, hidden w, vlevel w, vcf w) = (self v, input_dim v, latent_dim v, hidden v, vlevel v, vcf v) }.
Lemma counted'_refl s : Inv s -> counted' s s. Proof. intros H. exists (counter s), (st s). split; [destruct s; reflexivity|exact (inv_st s H)]. Qed.
Lemma counted'_trans a b c : counted' a b -> counted' b c -> counted' a c.
Proof. intros (x & t & -> & _) (y & u & -> & B). exists y, u. split; [reflexivity|exact B]. Qed.
Lemma counted_counted' s s' : Inv s -> counted s s' -> counted' s s'.
Proof. intros H [c ->]. exists c, (st s). split; [destruct s; reflexivity|exact (inv_st s H)]. Qed.
Lemma net_counted' s s' ls lv h o : counted' s s' -> net s ls lv h o -> net s' ls lv h o.
Proof. intros (c & t & -> & B) [H1 H2 H3 H4]. constructor; try assumption. apply Inv_counter, Inv_stats; assumption. Qed.
Lemma mild_refl v : VInv v -> mild v v.
Proof. intros [B1 B2 B3 B4 B5]. constructor; auto; apply counted'_refl; eapply n_inv; eassumption. Qed.
Lemma mild_trans a b c : mild a b -> mild b c -> mild a c.
Proof. intros [A1 A2 A3 A4 A5] [B1 B2 B3 B4 B5]. constructor; auto; try (eapply counted'_trans; eassumption). congruence. Qed.
Lemma VInv_mild v w : mild v w -> VInv v -> VInv w.
Proof.
  intros [A1 A2 A3 A4 A5] [B1 B2 B3 B4 B5]. injection A5 as E1 E2 E3 E4 E5 E6.
  constructor; unfold enc_sizes, dec_sizes, itp_sizes in *; rewrite ?E1, ?E2, ?E3, ?E4, ?E5, ?E6; try assumption; auto; eapply net_counted'; eassumption.
Qed.
Lemma quiet_mild v w : VInv v -> quiet v w -> mild v w.
Proof.
  intros [B1 B2 B3 B4 B5] [A1 A2 A3 A4]. injection A4 as E1 E2 E3 E4 E5 E6 E7. constructor; try (apply counted_counted'; [eapply n_inv|]; eassumption); congruence.
Qed.

(** ** one network *)
Lemma hd_sizes s ls lv h o : net s ls lv h o -> hd O (sizes s) = hd O ls. Proof. intros H. rewrite (n_sizes _ _ _ _ _ H). reflexivity. Qed.
Lemma net_forward s ls lv h o x rad d : net s ls lv h o -> length x = hd O ls ->
  exists y s', forward s x rad d = Ret (y, s') /\ counted' s s' /\ length y = last ls O.
Proof.
  intros H Hx. destruct (forward_shape s x rad d (n_inv _ _ _ _ _ H)) as (y & t & c & E & L & B); [rewrite (n_sizes _ _ _ _ _ H); exact Hx|].
  exists y, (with_counter (with_st s t) c). split; [exact E|]. split; [exists c, t; auto|]. rewrite L, (n_sizes _ _ _ _ _ H). reflexivity.
Qed.
Lemma net_forward_quiet s ls lv h o x rad d : net s ls lv h o -> (lv <> FULL_TMR /\ lv <> ADAPTIVE_TMR) \/ fgt rad (dlit 2 10) = false -> length x = hd O ls ->
  exists s', forward s x rad d = Ret (network (params s) (acts s) x, s') /\ counted s s' /\ length (network (params s) (acts s) x) = last ls O.
Proof.
  intros H NV Hx. destruct (forward_quiet s x rad d (n_inv _ _ _ _ _ H)) as (c & E).
  { unfold no_vote. rewrite (n_lvl _ _ _ _ _ H). exact NV. } { rewrite (n_sizes _ _ _ _ _ H); exact Hx. }
  destruct (net_forward s ls lv h o x rad d H Hx) as (y & s' & E' & _ & L). exists (with_counter s c). split; [exact E|]. split; [exists c; reflexivity|].
  rewrite E in E'; injection E' as <- _. exact L.
Qed.
Lemma net_forward_wrong s ls lv h o x rad d : net s ls lv h o -> length x <> hd O ls -> forward s x rad d = Throw E_invalid_argument.
Proof. intros H Hx. unfold forward. rewrite (n_sizes _ _ _ _ _ H). apply Nat.eqb_neq in Hx. rewrite Hx. reflexivity. Qed.
Lemma counted_params s s' : counted s s' -> params s' = params s /\ acts s' = acts s.
Proof. intros [c ->]. split; reflexivity. Qed.
Lemma counted'_params s s' : counted' s s' -> params s' = params s /\ acts s' = acts s /\ sizes s' = sizes s.
Proof. intros (c & t & -> & _). repeat split; reflexivity. Qed.

(** ** preprocessing keeps the number of coordinates *)
Lemma logs_length x : length (applyLogarithmics logf x) = length x. Proof. apply map_length. Qed.
Lemma inv_logs_length x : length (applyInverseLogarithmics expf x) = length x. Proof. apply map_length. Qed.
Lemma std_length x : length (applyStandardization x) = length x. Proof. destruct x; [reflexivity|]. unfold applyStandardization. apply map_length. Qed.
Lemma last_app1 (l : list nat) x : last (l ++ [x]) O = x.
Proof. induction l as [|a l IH]; [reflexivity|]. cbn [app]. destruct (l ++ [x]) eqn:E; [destruct l; discriminate|]. cbn [last] in *. exact IH. Qed.
Lemma last_enc v : last (enc_sizes v) O = 2 * latent_dim v.
Proof. unfold enc_sizes. change (input_dim v :: hidden v ++ [2 * latent_dim v]) with ((input_dim v :: hidden v) ++ [2 * latent_dim v]). apply last_app1. Qed.
Lemma last_dec v : last (dec_sizes v) O = input_dim v.
Proof. unfold dec_sizes. change (latent_dim v :: rev (hidden v) ++ [input_dim v]) with ((latent_dim v :: rev (hidden v)) ++ [input_dim v]). apply last_app1. Qed.

(** ** encode, sample, decode *)
Definition split_ok (v : vae) (y : list N) : list N * list N := (firstn (latent_dim v) y, map clamp_log_var (skipn (latent_dim v) y)).
Lemma nth_seq_firstn (l : list N) n : n <= length l -> map (fun i => nth i l 0%N) (seq 0 n) = firstn n l.
Proof.
  intros H. apply nth_error_ext; intros k. destruct (Nat.lt_ge_cases k n) as [Hk|Hk].
  - rewrite nth_error_map, (nth_error_nth' _ 0) by (rewrite seq_length; exact Hk). rewrite seq_nth by exact Hk. cbn [option_map Nat.add].
    rewrite (nth_error_nth' _ 0%N) by (rewrite firstn_length; lia). f_equal. rewrite <- (firstn_skipn n l) at 1. apply app_nth1. rewrite firstn_length; lia.
  - rewrite (proj2 (nth_error_None _ _)) by (rewrite map_length, seq_length; exact Hk). symmetry. apply nth_error_None. rewrite firstn_length; lia.
Qed.
Lemma nth_seq_skipn (l : list N) n : length l = 2 * n -> map (fun i => nth (i + n) l 0%N) (seq 0 n) = skipn n l.
Proof.
  intros H. rewrite <- (firstn_all (skipn n l)). rewrite skipn_length. replace (length l - n) with n by lia. rewrite <- nth_seq_firstn by (rewrite skipn_length; lia).
  apply map_ext_in; intros i Hi. apply in_seq in Hi. rewrite <- (firstn_skipn n l) at 1. rewrite app_nth2 by (rewrite firstn_length; lia).
  rewrite firstn_length. f_equal. lia.
Qed.
Lemma encode_split v y : length y = 2 * latent_dim v ->
  omap (fun i => m <- at_ y i ;; l <- at_ y (i + latent_dim v) ;; Ret (m, l)) (seq 0 (latent_dim v)) =
  Ret (map (fun i => (nth i y 0%N, nth (i + latent_dim v) y 0%N)) (seq 0 (latent_dim v))).
Proof.
  intros H. apply omap_ok. intros i Hi. apply in_seq in Hi. rewrite (at_ok y i 0%N) by lia. cbn [obind]. rewrite (at_ok y _ 0%N) by lia. reflexivity.
Qed.
Lemma encode_ok v x rad d : VInv v -> length x = input_dim v ->
  exists y s', forward (enc v) (applyStandardization (applyLogarithmics logf x)) rad d = Ret (y, s') /\ length y = 2 * latent_dim v /\ counted' (enc v) s' /\
    encode logf v x rad d = Ret (fst (split_ok v y), snd (split_ok v y), with_enc v s').
Proof.
  intros HV Hx. destruct (net_forward _ _ _ _ _ (applyStandardization (applyLogarithmics logf x)) rad d (v_enc v HV)) as (y & s' & E & C & L).
  { rewrite std_length, logs_length. exact Hx. }
  rewrite last_enc in L. exists y, s'. split; [exact E|]. split; [exact L|]. split; [exact C|]. unfold encode. rewrite E; cbn [obind fst snd].
  rewrite (encode_split v y L); cbn [obind]. rewrite !map_map. cbn [fst snd]. do 2 f_equal. unfold split_ok. cbn [fst snd]. f_equal.
  - apply nth_seq_firstn. lia.
  - rewrite <- (map_map (fun i => nth (i + latent_dim v) y 0%N) clamp_log_var). rewrite (nth_seq_skipn y _ L). reflexivity.
Qed.
Lemma encode_quiet v x rad d : VInv v -> calm v rad -> length x = input_dim v ->
  exists s', let y := network (params (enc v)) (acts (enc v)) (applyStandardization (applyLogarithmics logf x)) in
    counted (enc v) s' /\ length y = 2 * latent_dim v /\ encode logf v x rad d = Ret (fst (split_ok v y), snd (split_ok v y), with_enc v s').
Proof.
  intros HV HC Hx. destruct (encode_ok v x rad d HV Hx) as (y & s' & E & L & C & H).
  destruct (net_forward_quiet _ _ _ _ _ (applyStandardization (applyLogarithmics logf x)) rad d (v_enc v HV) HC) as (s1 & E1 & C1 & L1).
  { rewrite std_length, logs_length. exact Hx. }
  rewrite E in E1; injection E1 as -> ->. exists s1. cbv zeta. split; [exact C1|]. split; [exact L|exact H].
Qed.
Lemma encode_wrong v x rad d : VInv v -> length x <> input_dim v -> encode logf v x rad d = Throw E_invalid_argument.
Proof. intros HV Hx. unfold encode. rewrite (net_forward_wrong _ _ _ _ _ _ rad d (v_enc v HV)); [reflexivity|]. rewrite std_length, logs_length. exact Hx. Qed.
Lemma mild_enc v s : VInv v -> counted' (enc v) s -> mild v (with_enc v s).
Proof. intros HV C. destruct (mild_refl v HV) as [A1 A2 A3 A4 A5]. constructor; auto. Qed.
Lemma mild_dec v s : VInv v -> counted' (dec v) s -> mild v (with_dec v s).
Proof. intros HV C. destruct (mild_refl v HV) as [A1 A2 A3 A4 A5]. constructor; auto. Qed.
Lemma mild_itp v s : VInv v -> counted' (itp v) s -> mild v (with_itp v s).
Proof. intros HV C. destruct (mild_refl v HV) as [A1 A2 A3 A4 A5]. constructor; auto. Qed.
Lemma quiet_enc v s : counted (enc v) s -> quiet v (with_enc v s).
Proof. intros C. destruct (quiet_refl v). constructor; auto. Qed.
Lemma quiet_dec v s : counted (dec v) s -> quiet v (with_dec v s).
Proof. intros C. destruct (quiet_refl v). constructor; auto. Qed.
Lemma quiet_itp v s : counted (itp v) s -> quiet v (with_itp v s).
Proof. intros C. destruct (quiet_refl v). constructor; auto. Qed.
Lemma encode_mild v x rad d m l w : VInv v -> encode logf v x rad d = Ret (m, l, w) ->
  mild v w /\ length m = latent_dim v /\ length l = latent_dim v /\ dec w = dec v /\ itp w = itp v /\ own w = own v /\ vmetrics w = vmetrics v /\ (calm v rad -> quiet v w).
Proof.
  intros HV H. destruct (Nat.eq_dec (length x) (input_dim v)) as [Hx|Hx]; [|rewrite (encode_wrong _ _ _ _ HV Hx) in H; discriminate].
  destruct (encode_ok v x rad d HV Hx) as (y & s' & E & L & C & H'). rewrite H in H'. injection H' as -> -> ->.
  split; [apply mild_enc; assumption|]. unfold split_ok; cbn [fst snd]. split; [rewrite firstn_length; lia|]. split; [rewrite map_length, skipn_length; lia|].
  do 4 (split; [reflexivity|]). intros HC. destruct (encode_quiet v x rad d HV HC Hx) as (s1 & C1 & _ & H1). rewrite H in H1. injection H1 as _ _ E1. subst s1.
  apply quiet_enc, C1.
Qed.
End V.
