(** ConvolutionalLayer. *)
From Coq Require Import List NArith ZArith Bool Lia.
Import ListNotations.
From Verif Require Import Outcome Words SimpleTMR_Model SimpleTMR_Spec SimpleTMR_Proofs Approx_Model Approx_Spec Approx_Proofs Bits_Model Bits_Spec Bits_Proofs Conv_Model Conv_Spec.
Local Open Scope Z_scope.

(** ** Dimensions *)
Lemma u64_id x : 0 <= x < 2 ^ 64 -> u64 x = x. Proof. intros H. unfold u64. apply Z.mod_small. exact H. Qed.
Lemma out_dim_eq d n : sane d -> 0 < n < 2 ^ 24 -> ksize d <= n + 2 * pad d -> out_dim d n = (n + 2 * pad d - ksize d) / stride d + 1.
Proof.
  intros (_ & _ & _ & _ & K & S & P) N Fi. unfold out_dim. rewrite (u64_id (2 * pad d)) by lia.
  assert (E : u64 (u64 (n - ksize d) + 2 * pad d) = n + 2 * pad d - ksize d).
  { unfold u64. rewrite Zplus_mod_idemp_l. replace (n - ksize d + 2 * pad d) with (n + 2 * pad d - ksize d) by lia. apply Z.mod_small. lia. }
  rewrite E. apply u64_id. assert (0 <= (n + 2 * pad d - ksize d) / stride d) by (apply Z.div_pos; lia).
  assert ((n + 2 * pad d - ksize d) / stride d <= n + 2 * pad d - ksize d) by (apply Z.div_le_upper_bound; nia). lia.
Qed.
Lemma out_dim_fits d n o : sane d -> 0 < n < 2 ^ 24 -> ksize d <= n + 2 * pad d -> 0 <= o -> (o < out_dim d n <-> o * stride d + ksize d <= n + 2 * pad d).
Proof.
  intros Sn N Fi O. rewrite out_dim_eq by assumption. destruct Sn as (_ & _ & _ & _ & K & S & P). set (m := n + 2 * pad d - ksize d) in *.
  assert (Q : o < m / stride d + 1 <-> o <= m / stride d) by lia. rewrite Q. split; intros H.
  - assert (stride d * (m / stride d) <= m) by (apply Z.mul_div_le; lia). nia.
  - apply Z.div_le_lower_bound; lia.
Qed.
Lemma out_dim_wraps d n : sane d -> 0 < n < 2 ^ 24 -> n + 2 * pad d + 1 < ksize d -> 2 ^ 39 <= out_dim d n.
Proof.
  intros (_ & _ & _ & _ & K & S & P) N Fi. unfold out_dim. rewrite (u64_id (2 * pad d)) by lia.
  assert (E : u64 (u64 (n - ksize d) + 2 * pad d) = 2 ^ 64 + n + 2 * pad d - ksize d).
  { unfold u64. rewrite Zplus_mod_idemp_l. symmetry. apply (Z.mod_unique _ _ (-1)); lia. }
  rewrite E. set (m := 2 ^ 64 + n + 2 * pad d - ksize d). assert (2 ^ 63 <= m < 2 ^ 64) by (unfold m; lia).
  assert (B : 2 ^ 39 <= m / stride d) by (apply Z.div_le_lower_bound; lia). assert (m / stride d < 2 ^ 64) by (apply Z.div_lt_upper_bound; lia).
  destruct (Z.eq_dec (m / stride d) (2 ^ 64 - 1)) as [C|C]; [|rewrite u64_id; lia].
  exfalso. assert (stride d * (m / stride d) <= m) by (apply Z.mul_div_le; lia). rewrite C in H1. unfold m in H1. assert (1 * (2 ^ 64 - 1) <= stride d * (2 ^ 64 - 1)) by (apply Z.mul_le_mono_nonneg_r; lia). lia.
Qed.

(** ** TMR *)
Lemma get3 v : core_get Z.eqb (mk3 v v v) = v. Proof. unfold core_get. cbn. rewrite Z.eqb_refl. reflexivity. Qed.
Lemma get_hit v i w : core_get Z.eqb (write3 (mk3 v v v) i w) = v.
Proof. exact (core_masks Z.eqb Z.eqb_eq v i w). Qed.
Lemma get_repair c : core_get Z.eqb (core_repair Z.eqb c) = core_get Z.eqb c.
Proof. unfold core_repair. apply get3. Qed.

(** ** Two layers with the same voted parameters give the same results *)
Definition agree (l l' : layer) : Prop :=
  (forall oc ic kh kw, core_get Z.eqb (weights l oc ic kh kw) = core_get Z.eqb (weights l' oc ic kh kw)) /\ (forall oc, core_get Z.eqb (biases l oc) = core_get Z.eqb (biases l' oc)).
Lemma ofold_ext {A B} (f g : B -> A -> outcome B) l : (forall b x, f b x = g b x) -> forall b, ofold f l b = ofold g l b.
Proof. intros H. induction l as [|x r IH]; intros b; [reflexivity|]. cbn [ofold]. rewrite H. destruct (g b x); cbn [obind]; auto. Qed.
Lemma omap_ext {A B} (f g : A -> outcome B) l : (forall x, In x l -> f x = g x) -> omap f l = omap g l.
Proof. induction l as [|x r IH]; intros H; [reflexivity|]. cbn [omap]. rewrite (H x (or_introl eq_refl)), IH by (intros; apply H; simpl; auto). reflexivity. Qed.
Lemma pixel_agree t F d l l' x oc oh ow : agree l l' -> pixel t F d l x oc oh ow = pixel t F d l' x oc oh ow.
Proof.
  intros [W B]. unfold pixel. rewrite (B oc). apply ofold_ext. intros b [[ic kh] kw]. unfold tap. rewrite (W oc ic kh kw). reflexivity.
Qed.
Lemma forward_agree t F d l l' : agree l l' -> same_outputs t F d l l'.
Proof. intros A x. unfold forward. apply omap_ext. intros oc _. apply omap_ext. intros oh _. apply omap_ext. intros ow _. apply pixel_agree. exact A. Qed.
Lemma struck_agree l l' w b : holds l w b -> struck l l' -> agree l l'.
Proof.
  intros [Hw Hb] [Sw Sb]. split.
  - intros oc ic kh kw. destruct (Sw oc ic kh kw) as (i & v & E). rewrite E, Hw, get3, get_hit. reflexivity.
  - intros oc. destruct (Sb oc) as (i & v & E). rewrite E, Hb, get3, get_hit. reflexivity.
Qed.
Lemma repair_agree l : agree (repair l) l.
Proof. split; intros; cbn [repair weights biases]; apply get_repair. Qed.
Lemma mission_holds d w b l : mission d w b l -> holds l w b.
Proof.
  induction 1 as [|w b l l' M IH S|w b l l' oc ic kh kw v M IH E|w b l l' oc v M IH E].
  - split; reflexivity.
  - destruct IH as [Hw Hb]. destruct S as [Sw Sb]. split.
    + intros oc ic kh kw. cbn [repair weights]. destruct (Sw oc ic kh kw) as (i & v & E). rewrite E, Hw. unfold core_repair. rewrite get_hit. reflexivity.
    + intros oc. cbn [repair biases]. destruct (Sb oc) as (i & v & E). rewrite E, Hb. unfold core_repair. rewrite get_hit. reflexivity.
  - destruct IH as [Hw Hb]. unfold set_weight in E. destruct (inside _ _ && _ && _ && _); [|discriminate]. injection E as <-. split; [|exact Hb]. intros a b' c e. cbn [weights].
    destruct ((a =? oc) && (b' =? ic) && (c =? kh) && (e =? kw)); [reflexivity|apply Hw].
  - destruct IH as [Hw Hb]. unfold set_bias in E. destruct (inside _ _); [|discriminate]. injection E as <-. split; [exact Hw|]. intros a. cbn [biases]. destruct (a =? oc); [reflexivity|apply Hb].
Qed.

(** ** Lists of loops *)
Lemma upto_in n i : In i (upto n) <-> 0 <= i < n.
Proof. unfold upto. rewrite in_map_iff. split; [intros (k & <- & H); apply in_seq in H; lia|]. intros H. exists (Z.to_nat i). split; [lia|]. apply in_seq. lia. Qed.
Lemma upto_length n : length (upto n) = Z.to_nat n. Proof. unfold upto. rewrite map_length, seq_length. reflexivity. Qed.
Lemma upto_nth n i : 0 <= i < n -> nth_error (upto n) (Z.to_nat i) = Some i.
Proof. intros H. unfold upto. rewrite nth_error_map. rewrite (nth_error_nth' _ O) by (rewrite seq_length; lia). cbn. rewrite seq_nth by lia. f_equal. lia. Qed.
Lemma taps_in d k : In k (taps d) <-> 0 <= fst (fst k) < in_ch d /\ 0 <= snd (fst k) < ksize d /\ 0 <= snd k < ksize d.
Proof.
  unfold taps. rewrite in_flat_map. split.
  - intros (ic & Hic & H). apply in_flat_map in H. destruct H as (kh & Hkh & H). apply in_map_iff in H. destruct H as (kw & <- & Hkw). apply upto_in in Hic. apply upto_in in Hkh. apply upto_in in Hkw. cbn. auto.
  - destruct k as [[ic kh] kw]. cbn. intros (A & B & C). exists ic. split; [apply upto_in; exact A|]. apply in_flat_map. exists kh. split; [apply upto_in; exact B|]. apply in_map_iff. exists kw. split; [reflexivity|apply upto_in; exact C].
Qed.
Definition sumz (l : list Z) : Z := fold_right Z.add 0 l.
Lemma sumz_app a b : sumz (a ++ b) = sumz a + sumz b. Proof. unfold sumz. induction a; simpl; lia. Qed.
Lemma sumz_flat {A B} (f : B -> Z) (g : A -> list B) l : sumz (map f (flat_map g l)) = sumz (map (fun a => sumz (map f (g a))) l).
Proof. induction l as [|a r IH]; [reflexivity|]. cbn [flat_map map]. rewrite map_app, sumz_app, IH. reflexivity. Qed.
Lemma total_upto f n : total f n = sumz (map f (upto n)). Proof. reflexivity. Qed.
Lemma taps_sum d (f : Z * Z * Z -> Z) : sumz (map f (taps d)) = total (fun ic => total (fun kh => total (fun kw => f (ic, kh, kw)) (ksize d)) (ksize d)) (in_ch d).
Proof.
  unfold taps. rewrite sumz_flat, total_upto. f_equal. apply map_ext. intros ic. rewrite sumz_flat, total_upto. f_equal. apply map_ext. intros kh. rewrite map_map, total_upto. reflexivity.
Qed.
Lemma flat_length {A B} (g : A -> list B) l n : (forall a, In a l -> length (g a) = n) -> length (flat_map g l) = (length l * n)%nat.
Proof. induction l as [|a r IH]; intros H; [reflexivity|]. cbn [flat_map length]. rewrite app_length, (IH (fun x Hx => H x (or_intror Hx))), (H a (or_introl eq_refl)). reflexivity. Qed.
Lemma taps_length d : 0 <= in_ch d -> 0 <= ksize d -> Z.of_nat (length (taps d)) = in_ch d * ksize d * ksize d.
Proof.
  intros I K. unfold taps. rewrite (flat_length _ _ (Z.to_nat (ksize d) * Z.to_nat (ksize d))%nat).
  - rewrite upto_length. nia.
  - intros ic _. rewrite (flat_length _ _ (Z.to_nat (ksize d))); [rewrite upto_length; reflexivity|]. intros kh _. rewrite map_length, upto_length. reflexivity.
Qed.

(** ** One tap *)
Lemma icast32_id x : 0 <= x < 2 ^ 31 -> icast int32 x = x.
Proof. intros H. apply icast_id. unfold in_range. split; [simpl; auto 10|]. change (- 2 ^ 31 <= x < 2 ^ 31). lia. Qed.
Lemma position_eq d s k : sane d -> 0 <= s < 2 ^ 26 -> 0 <= k < 2 ^ 24 -> position d s k = Ret (s + k - pad d).
Proof.
  intros (_ & _ & _ & _ & _ & _ & P) S K. unfold position. rewrite !icast32_id by lia. unfold arith, fitsb. change (isg int32) with true. cbv iota.
  change (imin int32) with (- 2 ^ 31). change (imax int32) with (2 ^ 31 - 1).
  replace (- 2 ^ 31 <=? s + k) with true by (symmetry; apply Z.leb_le; lia). replace (s + k <=? 2 ^ 31 - 1) with true by (symmetry; apply Z.leb_le; lia). cbn [andb obind].
  replace (- 2 ^ 31 <=? s + k - pad d) with true by (symmetry; apply Z.leb_le; lia). replace (s + k - pad d <=? 2 ^ 31 - 1) with true by (symmetry; apply Z.leb_le; lia). reflexivity.
Qed.

(** ** The sum *)
Definition term (F : Z) (d : dims) (w : Z -> Z -> Z -> Z -> Z) (x : Z -> Z -> Z -> Z) (oc oh ow : Z) (k : Z * Z * Z) : Z :=
  fxmul F (w oc (fst (fst k)) (snd (fst k)) (snd k)) (padded d x (fst (fst k)) (oh * stride d + snd (fst k) - pad d) (ow * stride d + snd k - pad d)).
Lemma good_range t v : good_type t -> Z.abs v <= imax t -> in_range t v.
Proof.
  intros G H. unfold in_range. split; [unfold good_type in G; simpl in *; intuition|]. unfold good_type in G. simpl in G. destruct G as [<-|[<-|[<-|[]]]]; cbn in *; lia.
Qed.
Lemma fx_bound F a b W X : 0 <= F -> Z.abs a <= W -> Z.abs b <= X -> Z.abs (fxmul F a b) <= W * X / 2 ^ F + 1.
Proof.
  intros HF A B. unfold fxmul. assert (P : 0 < 2 ^ F) by (apply Z.pow_pos_nonneg; lia). assert (M : Z.abs (a * b) <= W * X) by (rewrite Z.abs_mul; apply Z.mul_le_mono_nonneg; lia).
  assert (U : a * b / 2 ^ F <= W * X / 2 ^ F) by (apply Z.div_le_mono; lia).
  assert (L : - (W * X) / 2 ^ F <= a * b / 2 ^ F) by (apply Z.div_le_mono; lia).
  assert (N : - (W * X / 2 ^ F + 1) <= - (W * X) / 2 ^ F). { apply Z.div_le_lower_bound; [lia|]. pose proof (Z.mul_succ_div_gt (W * X) (2 ^ F) P). lia. }
  lia.
Qed.
Lemma fp_add_small t a b : good_type t -> Z.abs a <= imax t -> Z.abs b <= imax t -> Z.abs (a + b) <= imax t -> fp_add t a b = Ret (a + b).
Proof.
  intros G A B C. rewrite fp_add_spec by (apply good_range; assumption). replace (fitsb t (a + b)) with true; [reflexivity|]. symmetry. unfold fitsb. apply andb_true_iff. rewrite !Z.leb_le.
  unfold good_type in G. simpl in G. destruct G as [<-|[<-|[<-|[]]]]; cbn in *; lia.
Qed.
Lemma fp_mul_small t F a b : good_type t -> 0 <= F -> Z.abs a <= imax t -> Z.abs b <= imax t -> Z.abs (fxmul F a b) <= imax t -> fp_mul t F a b = Ret (fxmul F a b).
Proof.
  intros G HF A B C. apply fp_mul_floor; try (apply good_range; assumption); [exact HF|]. unfold good_type in G. simpl in G. destruct G as [<-|[<-|[<-|[]]]]; cbn; auto; lia.
Qed.
Lemma tap_eq t F d l w b x oc oh ow s k : good_type t -> 0 <= F -> sane d -> holds l w b -> 0 <= oh * stride d < 2 ^ 26 -> 0 <= ow * stride d < 2 ^ 26 -> In k (taps d) ->
  (forall oc ic kh kw, Z.abs (w oc ic kh kw) <= imax t) -> (forall ic i j, Z.abs (x ic i j) <= imax t) -> Z.abs (term F d w x oc oh ow k) <= imax t ->
  Z.abs s <= imax t -> Z.abs (s + term F d w x oc oh ow k) <= imax t ->
  tap t F d l x oc (u64 (oh * stride d)) (u64 (ow * stride d)) s k = Ret (s + term F d w x oc oh ow k).
Proof.
  intros G HF Sn H Oh Ow K Bw Bx Bt Bs Bst. apply taps_in in K. destruct k as [[ic kh] kw]. cbn [fst snd] in *. destruct K as (Kc & Kh & Kw). unfold tap.
  assert (Ks : 0 < ksize d < 2 ^ 24) by apply Sn. assert (Hh : 0 < in_h d < 2 ^ 24) by apply Sn. assert (Hw : 0 < in_w d < 2 ^ 24) by apply Sn.
  rewrite !u64_id by lia. rewrite !position_eq by (try exact Sn; lia). cbn [obind]. rewrite !icast32_id by lia.
  unfold term, padded in *. cbn [fst snd] in *. set (i := oh * stride d + kh - pad d) in *. set (j := ow * stride d + kw - pad d) in *.
  destruct ((0 <=? i) && (i <? in_h d) && (0 <=? j) && (j <? in_w d)) eqn:E.
  - apply andb_prop in E. destruct E as [E E4]. apply andb_prop in E. destruct E as [E E3]. apply andb_prop in E. destruct E as [E1 E2].
    unfold inside. rewrite E1, E2, E3, E4. replace (0 <=? ic) with true by (symmetry; apply Z.leb_le; lia). replace (ic <? in_ch d) with true by (symmetry; apply Z.ltb_lt; lia). cbn [andb].
    destruct H as [Hw' _]. rewrite Hw', get3. rewrite (fp_mul_small t F _ _ G HF (Bw _ _ _ _) (Bx _ _ _) Bt). cbn [obind]. apply fp_add_small; assumption.
  - unfold fxmul. rewrite Z.mul_0_r, Z.div_0_l by (apply Z.pow_nonzero; lia). f_equal. lia.
Qed.
Lemma sum_eq t F d l w b x oc oh ow M : good_type t -> 0 <= F -> sane d -> holds l w b -> 0 <= oh * stride d < 2 ^ 26 -> 0 <= ow * stride d < 2 ^ 26 ->
  (forall oc ic kh kw, Z.abs (w oc ic kh kw) <= imax t) -> (forall ic i j, Z.abs (x ic i j) <= imax t) -> 0 <= M -> (forall k, Z.abs (term F d w x oc oh ow k) <= M) ->
  forall ks s, (forall k, In k ks -> In k (taps d)) -> Z.abs s + Z.of_nat (length ks) * M <= imax t ->
  ofold (tap t F d l x oc (u64 (oh * stride d)) (u64 (ow * stride d))) ks s = Ret (s + sumz (map (term F d w x oc oh ow) ks)).
Proof.
  intros G HF Sn H Oh Ow Bw Bx HM BM. induction ks as [|k r IH]; intros s Sub B; [cbn; f_equal; lia|]. cbn [ofold map sumz fold_right]. cbn [length] in B.
  pose proof (BM k) as Bk. rewrite (tap_eq t F d l w b x oc oh ow s k); try assumption; [|apply Sub; simpl; auto|nia|nia|nia]. cbn [obind].
  rewrite IH; [f_equal; unfold sumz; lia|intros; apply Sub; simpl; auto|]. nia.
Qed.
Lemma padded_bound d x X ic i j : (forall ic i j, Z.abs (x ic i j) <= X) -> Z.abs (padded d x ic i j) <= X.
Proof. intros H. unfold padded. destruct (_ && _ && _ && _); [apply H|]. specialize (H 0 0 0). lia. Qed.
Lemma pixel_eq t F d l w b x oc oh ow : good_type t -> 0 <= F -> sane d -> fits d -> holds l w b -> small t F d w b x -> 0 <= oh < out_h d -> 0 <= ow < out_w d ->
  pixel t F d l x oc oh ow = Ret (correlation (fxmul F) d w b x oc oh ow).
Proof.
  intros G HF Sn [F1 F2] H (W & X & B & BW & BX & BB & LW & LX & Tot) Oh Ow.
  assert (Hh : 0 < in_h d < 2 ^ 24) by apply Sn. assert (Hw : 0 < in_w d < 2 ^ 24) by apply Sn. assert (Hp : 0 <= pad d < 2 ^ 24) by apply Sn. assert (Hk : 0 < ksize d < 2 ^ 24) by apply Sn. assert (Hs : 0 < stride d < 2 ^ 24) by apply Sn. assert (Hc : 0 < in_ch d < 2 ^ 24) by apply Sn.
  pose proof (proj1 (out_dim_fits d (in_h d) oh Sn Hh F1 ltac:(lia)) ltac:(apply Oh)) as Po. pose proof (proj1 (out_dim_fits d (in_w d) ow Sn Hw F2 ltac:(lia)) ltac:(apply Ow)) as Pw.
  assert (0 <= W) by (specialize (BW 0 0 0 0); lia). assert (0 <= X) by (specialize (BX 0 0 0); lia).
  assert (M0 : 0 <= W * X / 2 ^ F) by (apply Z.div_pos; [nia|apply Z.pow_pos_nonneg; lia]).
  assert (So : 0 <= oh * stride d < 2 ^ 26) by (split; [apply Z.mul_nonneg_nonneg; lia|lia]). assert (Sw : 0 <= ow * stride d < 2 ^ 26) by (split; [apply Z.mul_nonneg_nonneg; lia|lia]).
  unfold pixel. destruct H as [Hw' Hb] eqn:HH. rewrite Hb, get3. rewrite (sum_eq t F d l w b x oc oh ow (W * X / 2 ^ F + 1)); try assumption; try lia.
  - f_equal. unfold correlation. rewrite taps_sum. reflexivity.
  - intros o i kh kw. specialize (BW o i kh kw). lia.
  - intros ic i j. specialize (BX ic i j). lia.
  - intros k. apply fx_bound; [exact HF|apply BW|apply padded_bound; exact BX].
  - auto.
  - rewrite taps_length by lia. specialize (BB oc). lia.
Qed.
Lemma omap_nth {A B} (f : A -> outcome B) (g : A -> B) l : (forall x, In x l -> f x = Ret (g x)) -> omap f l = Ret (map g l).
Proof. induction l as [|x r IH]; intros H; [reflexivity|]. cbn [omap]. rewrite (H x (or_introl eq_refl)). cbn [obind]. rewrite IH by (intros; apply H; simpl; auto). reflexivity. Qed.
Lemma forward_eq t F d l w b x : good_type t -> 0 <= F -> sane d -> fits d -> holds l w b -> small t F d w b x ->
  forward t F d l x = Ret (map (fun oc => map (fun oh => map (fun ow => correlation (fxmul F) d w b x oc oh ow) (upto (out_w d))) (upto (out_h d))) (upto (out_ch d))).
Proof.
  intros. unfold forward. apply omap_nth. intros oc _. apply omap_nth. intros oh Hoh. apply omap_nth. intros ow How. apply upto_in in Hoh. apply upto_in in How. apply (pixel_eq t F d l w b); assumption.
Qed.
Lemma entry_map (f : Z -> Z -> Z -> Z) A B C oc oh ow : 0 <= oc < A -> 0 <= oh < B -> 0 <= ow < C ->
  entry (map (fun oc => map (fun oh => map (fun ow => f oc oh ow) (upto C)) (upto B)) (upto A)) oc oh ow = Some (f oc oh ow).
Proof. intros H1 H2 H3. unfold entry. rewrite nth_error_map, (upto_nth A oc H1). cbn [option_map]. rewrite nth_error_map, (upto_nth B oh H2). cbn [option_map]. rewrite nth_error_map, (upto_nth C ow H3). reflexivity. Qed.

(** ** Rounding *)
Lemma total_le f g n : (forall i, f i <= g i) -> total f n <= total g n.
Proof. intros H. rewrite !total_upto. induction (upto n) as [|i r IH]; cbn; [lia|]. specialize (H i). unfold sumz in *. lia. Qed.
Lemma total_add f g n : total (fun i => f i + g i) n = total f n + total g n.
Proof. rewrite !total_upto. induction (upto n) as [|i r IH]; cbn; [lia|]. unfold sumz in *. lia. Qed.
Lemma total_const c n : 0 <= n -> total (fun _ => c) n = n * c.
Proof. intros H. rewrite total_upto. assert (E : forall l : list Z, sumz (map (fun _ => c) l) = Z.of_nat (length l) * c) by (induction l as [|i r IH]; cbn [map sumz fold_right length]; [lia|fold (sumz (map (fun _ : Z => c) r)); rewrite IH, Nat2Z.inj_succ; ring]). rewrite E, upto_length, Z2Nat.id by exact H. reflexivity. Qed.
Lemma total_scale c f n : total (fun i => c * f i) n = c * total f n.
Proof. rewrite !total_upto. induction (upto n) as [|i r IH]; cbn; [lia|]. unfold sumz in *. lia. Qed.
Lemma correlation_error F d w b x oc oh ow : 0 <= F -> 0 <= in_ch d -> 0 <= ksize d ->
  2 ^ F * correlation (fxmul F) d w b x oc oh ow <= correlation Z.mul d w (fun o => 2 ^ F * b o) x oc oh ow <= 
  2 ^ F * correlation (fxmul F) d w b x oc oh ow + in_ch d * ksize d * ksize d * (2 ^ F - 1).
Proof.
  intros HF HI HK. assert (P : 0 < 2 ^ F) by (apply Z.pow_pos_nonneg; lia). unfold correlation. rewrite Z.mul_add_distr_l.
  assert (T : forall a b, 2 ^ F * fxmul F a b <= a * b <= 2 ^ F * fxmul F a b + (2 ^ F - 1)).
  { intros a b'. unfold fxmul. pose proof (Z.mul_div_le (a * b') (2 ^ F) P). pose proof (Z.mul_succ_div_gt (a * b') (2 ^ F) P). lia. }
  rewrite <- total_scale. split.
  - apply Z.add_le_mono_l. apply total_le. intros ic. rewrite <- total_scale. apply total_le. intros kh. rewrite <- total_scale. apply total_le. intros kw. apply T.
  - rewrite <- Z.add_assoc. apply Z.add_le_mono_l. replace (in_ch d * ksize d * ksize d * (2 ^ F - 1)) with (total (fun _ => total (fun _ => total (fun _ => 2 ^ F - 1) (ksize d)) (ksize d)) (in_ch d)).
    2:{ rewrite total_const by exact HI. rewrite total_const by exact HK. rewrite total_const by exact HK. ring. }
    rewrite <- total_add. apply total_le. intros ic. rewrite <- total_scale, <- total_add. apply total_le. intros kh. rewrite <- total_scale, <- total_add. apply total_le. intros kw. apply T.
Qed.

(** ** Narrow types never overflow *)
Lemma icast_range t v : In t int_types -> in_range t (icast t v).
Proof.
  intros H. split; [exact H|]. unfold icast. simpl in H.
  repeat (destruct H as [<-|H]; [cbn [isg iw]; match goal with |- context [?a mod ?b] => pose proof (Z.mod_pos_bound a b ltac:(reflexivity)) end; cbn in *; lia|]). destruct H.
Qed.
Lemma narrow_ops t F a b : narrow t -> 0 <= F -> in_range t a -> in_range t b -> (exists p, fp_mul t F a b = Ret p /\ in_range t p) /\ (exists s, fp_add t a b = Ret s /\ in_range t s).
Proof.
  intros N HF Ha Hb. assert (IT : In t int_types) by apply Ha. split.
  - rewrite fp_mul_spec by (try assumption; unfold narrow in N; simpl in N; destruct N as [<-|[<-|[]]]; cbn; auto; lia). eexists; split; [reflexivity|]. apply icast_range. exact IT.
  - rewrite fp_add_spec by assumption. destruct (fitsb t (a + b)) eqn:E.
    + eexists; split; [reflexivity|]. apply fits_iff; assumption.
    + replace (strict t) with false by (unfold narrow in N; simpl in N; destruct N as [<-|[<-|[]]]; reflexivity). eexists; split; [reflexivity|]. apply icast_range. exact IT.
Qed.
Lemma get_range t c : in_range t (c0 c) -> in_range t (c1 c) -> in_range t (c2 c) -> in_range t (core_get Z.eqb c).
Proof. intros. unfold core_get. repeat match goal with |- context [if ?b then _ else _] => destruct b end; assumption. Qed.
Lemma tap_narrow t F d l x oc oh ow s k : narrow t -> 0 <= F -> sane d -> in_type t l -> 0 <= oh * stride d < 2 ^ 26 -> 0 <= ow * stride d < 2 ^ 26 -> In k (taps d) ->
  (forall ic i j, in_range t (x ic i j)) -> in_range t s -> exists s', tap t F d l x oc (u64 (oh * stride d)) (u64 (ow * stride d)) s k = Ret s' /\ in_range t s'.
Proof.
  intros N HF Sn [Tw _] Oh Ow K Bx Bs. apply taps_in in K. destruct k as [[ic kh] kw]. cbn [fst snd] in *. destruct K as (Kc & Kh & Kw). unfold tap.
  assert (Ks : 0 < ksize d < 2 ^ 24) by apply Sn. assert (Hh : 0 < in_h d < 2 ^ 24) by apply Sn. assert (Hw : 0 < in_w d < 2 ^ 24) by apply Sn.
  rewrite !u64_id by lia. rewrite !position_eq by (try exact Sn; lia). cbn [obind]. rewrite !icast32_id by lia.
  set (i := oh * stride d + kh - pad d) in *. set (j := ow * stride d + kw - pad d) in *.
  destruct ((0 <=? i) && (i <? in_h d) && (0 <=? j) && (j <? in_w d)) eqn:E; [|eauto].
  apply andb_prop in E. destruct E as [E E4]. apply andb_prop in E. destruct E as [E E3]. apply andb_prop in E. destruct E as [E1 E2].
  unfold inside. rewrite E1, E2, E3, E4. replace (0 <=? ic) with true by (symmetry; apply Z.leb_le; lia). replace (ic <? in_ch d) with true by (symmetry; apply Z.ltb_lt; lia). cbn [andb].
  destruct (Tw oc ic kh kw) as (A & B & C). destruct (narrow_ops t F _ _ N HF (get_range t _ A B C) (Bx ic i j)) as [(p & -> & Rp) _]. cbn [obind].
  destruct (narrow_ops t F s p N HF Bs Rp) as [_ (s' & -> & Rs)]. eauto.
Qed.
Lemma ofold_narrow {A} (P : Z -> Prop) (f : Z -> A -> outcome Z) ks : (forall s k, In k ks -> P s -> exists s', f s k = Ret s' /\ P s') -> forall s, P s -> exists s', ofold f ks s = Ret s' /\ P s'.
Proof.
  induction ks as [|k r IH]; intros H s Hs; [exists s; auto|]. cbn [ofold]. destruct (H s k (or_introl eq_refl) Hs) as (s1 & -> & H1). cbn [obind]. apply IH; [intros; apply H; simpl; auto|exact H1].
Qed.
Lemma omap_completes {A B} (f : A -> outcome B) l : (forall x, In x l -> exists y, f x = Ret y) -> exists ys, omap f l = Ret ys /\ length ys = length l.
Proof. induction l as [|x r IH]; intros H; [exists []; auto|]. cbn [omap]. destruct (H x (or_introl eq_refl)) as [y ->]. cbn [obind]. destruct IH as (ys & -> & L); [intros; apply H; simpl; auto|]. exists (y :: ys). split; [reflexivity|simpl; congruence]. Qed.
Lemma forward_narrow t F d l x : narrow t -> 0 <= F -> sane d -> fits d -> in_type t l -> (forall ic i j, in_range t (x ic i j)) -> exists out, forward t F d l x = Ret out.
Proof.
  intros N HF Sn [F1 F2] Tl Bx. unfold forward.
  assert (Px : forall oc oh ow, In oh (upto (out_h d)) -> In ow (upto (out_w d)) -> exists y, pixel t F d l x oc oh ow = Ret y).
  { intros oc oh ow Ho Hw_. apply upto_in in Ho. apply upto_in in Hw_.
    assert (Hh : 0 < in_h d < 2 ^ 24) by apply Sn. assert (Hw : 0 < in_w d < 2 ^ 24) by apply Sn. assert (Hp : 0 <= pad d < 2 ^ 24) by apply Sn. assert (Hk : 0 < ksize d < 2 ^ 24) by apply Sn. assert (Hs : 0 < stride d < 2 ^ 24) by apply Sn.
    pose proof (proj1 (out_dim_fits d (in_h d) oh Sn Hh F1 ltac:(lia)) ltac:(apply Ho)) as Po. pose proof (proj1 (out_dim_fits d (in_w d) ow Sn Hw F2 ltac:(lia)) ltac:(apply Hw_)) as Pw.
    assert (So : 0 <= oh * stride d < 2 ^ 26) by (split; [apply Z.mul_nonneg_nonneg; lia|lia]). assert (Sw : 0 <= ow * stride d < 2 ^ 26) by (split; [apply Z.mul_nonneg_nonneg; lia|lia]).
    unfold pixel. destruct (ofold_narrow (in_range t) (tap t F d l x oc (u64 (oh * stride d)) (u64 (ow * stride d))) (taps d)) with (s := core_get Z.eqb (biases l oc)) as (s' & E & _); [| |eauto].
    - intros s k Hk' Hs'. apply tap_narrow; assumption.
    - destruct (proj2 Tl oc) as (A & B & C). apply get_range; assumption. }
  destruct (omap_completes (fun oc => omap (fun oh => omap (fun ow => pixel t F d l x oc oh ow) (upto (out_w d))) (upto (out_h d))) (upto (out_ch d))) as (ys & -> & _); [|eauto].
  intros oc _. destruct (omap_completes (fun oh => omap (fun ow => pixel t F d l x oc oh ow) (upto (out_w d))) (upto (out_h d))) as (zs & -> & _); [|eauto].
  intros oh Ho. destruct (omap_completes (fun ow => pixel t F d l x oc oh ow) (upto (out_w d))) as (us & -> & _); [|eauto]. intros ow How. apply Px; assumption.
Qed.
