(** C193-C199: the convolutional layer (inference/layers/conv_layer.hpp). *)
From Coq Require Import List NArith ZArith Bool Lia.
Import ListNotations.
From Verif Require Import Outcome Words SimpleTMR_Model Approx_Model Approx_Spec Bits_Model Conv_Model Conv_Spec Conv_Proofs.
Local Open Scope Z_scope.

(** 1 channel, 4x4 input, 3x3 kernel, stride 2, padding 1: a 2x2 output. *)
Definition d1 : dims := mkDims 1 1 4 4 3 2 1.
Lemma d1_sane : sane d1. Proof. unfold sane, d1. cbn. lia. Qed.
Definition img : Z -> Z -> Z -> Z := fun _ i j => if inside 4 i && inside 4 j then (i * 4 + j) * 65536 else 0.
(* identity kernel plus bias 1/2 (16.16) *)
Definition ident : Z -> Z -> Z -> Z -> Z := fun _ _ kh kw => if (kh =? 1) && (kw =? 1) then 65536 else 0.
Definition half : Z -> Z := fun _ => 32768.
Definition full (w : Z -> Z -> Z -> Z -> Z) (b : Z -> Z) : layer := mkLayer (fun a e c f => core_new (w a e c f)) (fun a => core_new (b a)).

Theorem C193_output_size : forall d, sane d -> fits d -> forall o, 0 <= o ->
  (o < out_h d <-> o * stride d + ksize d <= in_h d + 2 * pad d) /\ (o < out_w d <-> o * stride d + ksize d <= in_w d + 2 * pad d).
Proof. intros d S [F1 F2] o O. split; (apply out_dim_fits; [exact S|apply S|assumption|exact O]). Qed.
Example C193_nonvacuous : sane d1 /\ fits d1 /\ out_h d1 = 2 /\ out_w d1 = 2.
Proof. split; [exact d1_sane|]. split; [unfold fits, d1; cbn; lia|]. split; reflexivity. Qed.

Theorem C194_big_kernel_refuted : (exists d, sane d /\ in_h d + 2 * pad d < ksize d /\ out_h d = 2 ^ 64 - 1) /\
  (forall d, sane d -> in_h d + 2 * pad d + 1 < ksize d -> 2 ^ 39 <= out_h d).
Proof. split; [exists (mkDims 1 1 3 3 5 1 0); unfold sane; cbn; lia|]. intros d S H. apply out_dim_wraps; [exact S|apply S|exact H]. Qed.
Theorem C194_by_one_partial : forall d, sane d -> stride d = 1 -> ksize d = in_h d + 2 * pad d + 1 -> out_h d = 0.
Proof.
  intros d S S1 K. destruct S as (_ & _ & H1 & _ & H2 & _ & H3). unfold out_h, out_dim. rewrite S1, Z.div_1_r. unfold u64.
  rewrite Zplus_mod_idemp_l. replace (in_h d - ksize d) with (- (2 * pad d + 1)) by lia.
  rewrite Z.add_mod by (intro Q; discriminate Q).
  rewrite (Z.add_mod ((- (2 * pad d + 1)) mod 2 ^ 64)) by (intro Q; discriminate Q). rewrite !Z.mod_mod by (intro Q; discriminate Q).
  rewrite <- (Z.add_mod (- (2 * pad d + 1))) by (intro Q; discriminate Q).
  replace (- (2 * pad d + 1) + 2 * pad d) with (-1) by lia. reflexivity.
Qed.

Theorem C195_cross_correlation : forall t F d l w b x, good_type t -> 0 <= F -> sane d -> fits d -> holds l w b -> small t F d w b x ->
  exists out, forward t F d l x = Ret out /\ length out = Z.to_nat (out_ch d) /\
  forall oc oh ow, 0 <= oc < out_ch d -> 0 <= oh < out_h d -> 0 <= ow < out_w d -> entry out oc oh ow = Some (correlation (fxmul F) d w b x oc oh ow).
Proof.
  intros t F d l w b x G HF S Fi H Sm. eexists. split; [apply (forward_eq t F d l w b x); assumption|]. split; [rewrite map_length, upto_length; reflexivity|].
  intros oc oh ow A B C. exact (entry_map (correlation (fxmul F) d w b x) (out_ch d) (out_h d) (out_w d) oc oh ow A B C).
Qed.
Example C195_nonvacuous : good_type int32 /\ holds (full ident half) ident half /\ small int32 16 d1 ident half img /\
  forward int32 16 d1 (full ident half) img = Ret [[[32768; 2 * 65536 + 32768]; [8 * 65536 + 32768; 10 * 65536 + 32768]]].
Proof.
  split; [right; right; left; reflexivity|]. split; [split; reflexivity|]. split; [|vm_compute; reflexivity]. exists 65536, (16 * 65536), 32768.
  split; [intros oc ic kh kw; unfold ident; destruct (_ && _); lia|]. split; [|split; [intros; unfold half; lia|cbn; lia]].
  intros ic i j. unfold img, inside. destruct ((0 <=? i) && (i <? 4) && ((0 <=? j) && (j <? 4))) eqn:E; [|lia]. rewrite !andb_true_iff, !Z.leb_le, !Z.ltb_lt in E. lia.
Qed.

Theorem C196_rounding : forall F d w b x oc oh ow, 0 <= F -> sane d ->
  2 ^ F * correlation (fxmul F) d w b x oc oh ow <= correlation Z.mul d w (fun o => 2 ^ F * b o) x oc oh ow <=
  2 ^ F * correlation (fxmul F) d w b x oc oh ow + in_ch d * ksize d * ksize d * (2 ^ F - 1).
Proof. intros F d w b x oc oh ow HF S. apply correlation_error; [exact HF|apply Z.lt_le_incl; apply S|apply Z.lt_le_incl; apply S]. Qed.
(* -1 ulp times 1 ulp is -1 ulp *)
Example C196_nonvacuous : correlation (fxmul 16) (mkDims 1 1 1 1 1 1 0) (fun _ _ _ _ => -1) (fun _ => 0) (fun _ _ _ => 1) 0 0 0 = -1 /\
  correlation Z.mul (mkDims 1 1 1 1 1 1 0) (fun _ _ _ _ => -1) (fun _ => 0) (fun _ _ _ => 1) 0 0 0 = -1.
Proof. split; vm_compute; reflexivity. Qed.

(* 16.16: bias 32767 plus 1.0 * 1.0 *)
Theorem C197_overflow_refuted : exists d l x, sane d /\ fits d /\ holds l (fun _ _ _ _ => 65536) (fun _ => 32767 * 65536) /\ (forall ic i j, x ic i j = 65536) /\ forward int32 16 d l x = UB UB_signed_overflow.
Proof.
  exists (mkDims 1 1 1 1 1 1 0), (full (fun _ _ _ _ => 65536) (fun _ => 32767 * 65536)), (fun _ _ _ => 65536). split; [unfold sane; cbn; lia|]. split; [unfold fits; cbn; lia|]. split; [split; reflexivity|]. split; [reflexivity|]. vm_compute. reflexivity.
Qed.
Theorem C197_defined_partial : forall t F d l x, narrow t -> 0 <= F -> sane d -> fits d -> in_type t l -> (forall ic i j, in_range t (x ic i j)) -> exists out, forward t F d l x = Ret out.
Proof. exact forward_narrow. Qed.

Theorem C198_masking : forall t F d w b l l', mission d w b l -> struck l l' -> same_outputs t F d l' (full w b) /\ holds (repair l') w b.
Proof.
  intros t F d w b l l' M S. pose proof (mission_holds d w b l M) as H. split.
  - apply forward_agree. destruct (struck_agree l l' w b H S) as [A B]. destruct H as [Hw Hb]. split.
    + intros oc ic kh kw. rewrite <- A, Hw, get3. unfold full. cbn [weights]. unfold core_new. rewrite get3. reflexivity.
    + intros oc. rewrite <- B, Hb, get3. unfold full. cbn [biases]. unfold core_new. rewrite get3. reflexivity.
  - exact (mission_holds d w b (repair l') (M_strike d w b l l' M S)).
Qed.
Definition hit : layer := mkLayer (fun a e c f => write3 (core_new (ident a e c f)) 1 77) (fun a => write3 (core_new (half a)) 0 5).
Example C198_nonvacuous : struck (full ident half) hit /\ forward int32 16 d1 hit img = forward int32 16 d1 (full ident half) img /\ weights hit 0 0 1 1 = mk3 65536 77 65536 /\
  exists l, mission (mkDims 1 1 1 1 1 1 0) (fun a b c e => if (a =? 0) && (b =? 0) && (c =? 0) && (e =? 0) then 9 else 0) (fun _ => 0) l.
Proof.
  split; [split; intros; eexists; eexists; reflexivity|]. split; [vm_compute; reflexivity|]. split; [reflexivity|].
  exists (match set_weight (mkDims 1 1 1 1 1 1 0) layer_new 0 0 0 0 9 with Ret l => l | _ => layer_new end). apply (M_weight _ _ _ layer_new _ 0 0 0 0 9); [constructor|reflexivity].
Qed.

Theorem C199_repair : forall t F d l, same_outputs t F d (repair l) l /\
  (forall oc ic kh kw, let v := core_get Z.eqb (weights l oc ic kh kw) in weights (repair l) oc ic kh kw = mk3 v v v) /\ (forall oc, let v := core_get Z.eqb (biases l oc) in biases (repair l) oc = mk3 v v v).
Proof. intros t F d l. split; [apply forward_agree; apply repair_agree|]. split; reflexivity. Qed.
Example C199_nonvacuous : weights (repair hit) 0 0 1 1 = mk3 65536 65536 65536 /\ biases (repair hit) 0 = mk3 32768 32768 32768.
Proof. split; reflexivity. Qed.

Theorem C200_parameters : forall d l oc ic kh kw v, 
  ((0 <= oc < out_ch d /\ 0 <= ic < in_ch d /\ 0 <= kh < ksize d /\ 0 <= kw < ksize d) ->
   exists l', set_weight d l oc ic kh kw v = Ret l' /\ weights l' oc ic kh kw = mk3 v v v /\ (forall o, biases l' o = biases l o) /\
     forall a b c e, (a, b, c, e) <> (oc, ic, kh, kw) -> weights l' a b c e = weights l a b c e) /\
  (0 <= oc < out_ch d -> exists l', set_bias d l oc v = Ret l' /\ biases l' oc = mk3 v v v /\ (forall a b c e, weights l' a b c e = weights l a b c e) /\ forall a, a <> oc -> biases l' a = biases l a) /\
  (forall t F x, good_type t -> 0 <= F -> sane d -> fits d -> (forall ic i j, Z.abs (x ic i j) <= imax t) -> in_ch d * ksize d * ksize d <= imax t ->
    exists out, forward t F d layer_new x = Ret out /\ forall oc oh ow, 0 <= oc < out_ch d -> 0 <= oh < out_h d -> 0 <= ow < out_w d -> entry out oc oh ow = Some 0).
Proof.
  intros d l oc ic kh kw v. split; [|split].
  - intros (A & B & C & D). unfold set_weight, inside. 
    replace (_ && _) with true by (symmetry; rewrite !andb_true_iff, !Z.leb_le, !Z.ltb_lt; lia). eexists. split; [reflexivity|]. cbn [weights biases]. split; [rewrite !Z.eqb_refl; reflexivity|]. split; [reflexivity|].
    intros a b c e N. destruct ((a =? oc) && (b =? ic) && (c =? kh) && (e =? kw)) eqn:E; [|reflexivity]. rewrite !andb_true_iff, !Z.eqb_eq in E. exfalso. apply N. destruct E as [[[-> ->] ->] ->]. reflexivity.
  - intros A. unfold set_bias, inside. replace (_ && _) with true by (symmetry; rewrite !andb_true_iff, !Z.leb_le, !Z.ltb_lt; lia). eexists. split; [reflexivity|]. cbn [weights biases]. rewrite Z.eqb_refl. split; [reflexivity|]. split; [reflexivity|].
    intros a N. destruct (Z.eqb_spec a oc); [contradiction|reflexivity].
  - intros t F x G HF S Fi Bx Bt. destruct (C195_cross_correlation t F d layer_new (fun _ _ _ _ => 0) (fun _ => 0) x G HF S Fi) as (out & E & _ & H).
    + split; reflexivity.
    + exists 0, (imax t), 0. repeat split; try (intros; cbn; lia); try exact Bx; try lia.
      * unfold good_type in G. simpl in G. destruct G as [<-|[<-|[<-|[]]]]; cbn; lia.
    + exists out. split; [exact E|]. intros o oh ow A B C. rewrite (H o oh ow A B C). f_equal. unfold correlation.
      assert (Z0 : forall n, total (fun _ => 0) n = 0) by (intros n; rewrite total_upto; induction (upto n); cbn; auto).
      rewrite Z.add_0_l. replace (total _ (in_ch d)) with (total (fun _ => 0) (in_ch d)); [apply Z0|]. rewrite !total_upto. f_equal. apply map_ext. intros a. symmetry. rewrite total_upto.
      replace (map _ (upto (ksize d))) with (map (fun _ : Z => 0) (upto (ksize d))); [rewrite <- total_upto; apply Z0|]. apply map_ext. intros c. symmetry. rewrite total_upto.
      replace (map _ (upto (ksize d))) with (map (fun _ : Z => 0) (upto (ksize d))); [rewrite <- total_upto; apply Z0|]. apply map_ext. intros e. unfold fxmul. rewrite Z.mul_0_l. rewrite Z.div_0_l by (apply Z.pow_nonzero; lia). reflexivity.
Qed.
Example C200_nonvacuous : exists l', set_weight d1 layer_new 0 0 2 1 5 = Ret l' /\ weights l' 0 0 2 1 = mk3 5 5 5 /\ weights l' 0 0 1 2 = mk3 0 0 0.
Proof. eexists. split; [reflexivity|]. split; reflexivity. Qed.

Print Assumptions C193_output_size.
Print Assumptions C194_big_kernel_refuted.
Print Assumptions C194_by_one_partial.
Print Assumptions C195_cross_correlation.
Print Assumptions C196_rounding.
Print Assumptions C197_overflow_refuted.
Print Assumptions C197_defined_partial.
Print Assumptions C198_masking.
Print Assumptions C199_repair.
Print Assumptions C200_parameters.
