(** The autoencoder: training as a whole, files, copies. *)
From Coq Require Import List NArith ZArith Bool Arith Lia SpecFloat Permutation.
Import ListNotations.
From Verif Require Import Outcome Words Arith Floats Bits_Model MBP_Model PNN_Model PNN_Spec PNN_Proofs PNN5_Proofs Residual_Model Residual_Proofs Residual2_Proofs Vae_Model Vae_Spec Vae_Proofs Vae2_Proofs Vae3_Proofs Vae4_Proofs Vae5_Proofs Vae6_Proofs.
Local Open Scope nat_scope.
Local Open Scope outcome_scope.

Section V.
Variables (expf logf tanhf : sf -> sf) (gauss : N -> nat -> N) (pgauss : N -> nat -> N -> N -> N).
Local Notation VI := (VInv expf tanhf).
Local Notation zero := (S754_zero false).

(** ** trainProduction *)
Lemma production_ok fuel v td vd idx rt rv ts vs : VI v -> (N.of_nat (length ts) < 2 ^ 63)%N -> length ts < fuel -> (c_batch (vcf v) mod 2 ^ 64 <> 0)%Z ->
  all_of (input_dim v) ts -> all_of (input_dim v) vs -> (match vd with [] => splitTrainValidation v td idx | _ => Ret (td, vd) end) = Ret (ts, vs) ->
  exists m w k, trainProduction expf logf gauss pgauss fuel v td vd idx rt rv = Ret (m, w) /\ m = vmetrics w /\ quiet v w /\ k <= Z.to_nat (c_epochs (vcf v)) /\
    tracked (vcf v) m k /\ trained_on expf logf gauss pgauss v ts vs rt rv m /\ (k = Z.to_nat (c_epochs (vcf v)) \/ (c_patience (vcf v) <= without_improvement m)%Z) /\
    (0 < Z.to_nat (c_epochs (vcf v)) -> 0 < k).
Proof.
  intros HV Hn Hf Hb HT HS HE. unfold trainProduction. set (v0 := with_metrics v new_metrics).
  assert (Q0 : quiet v v0) by apply quiet_metrics. pose proof (VI_quiet _ _ _ _ Q0 HV) as HV0.
  assert (HE' : (match vd with [] => splitTrainValidation v0 td idx | _ => Ret (td, vd) end) = Ret (ts, vs)) by exact HE. rewrite HE'. cbn [obind fst snd].
  destruct (prod_epochs_ok expf logf tanhf gauss pgauss fuel ts vs rt rv (Z.to_nat (c_epochs (vcf v0))) Hn Hf v0 0 HV0 Hb HT HS) as (w & k & E & Q & Hk & TR & TO & HD & H0).
  - apply tracked_new.
  - repeat split.
  - lia.
  - rewrite E. cbn [obind]. exists (vmetrics w), w, k. split; [reflexivity|]. split; [reflexivity|]. split; [eapply quiet_trans; eassumption|]. split; [exact Hk|]. split; [exact TR|]. split; [|split; [exact HD|exact H0]].
    exact TO.
Qed.
Lemma production_hang fuel v td vd idx rt rv ts vs : ts <> [] -> (c_batch (vcf v) mod 2 ^ 64 = 0)%Z -> (0 < c_epochs (vcf v))%Z ->
  (match vd with [] => splitTrainValidation v td idx | _ => Ret (td, vd) end) = Ret (ts, vs) -> trainProduction expf logf gauss pgauss fuel v td vd idx rt rv = OutOfFuel.
Proof.
  intros Hn Hb He HE. unfold trainProduction. set (v0 := with_metrics v new_metrics).
  assert (HE' : (match vd with [] => splitTrainValidation v0 td idx | _ => Ret (td, vd) end) = Ret (ts, vs)) by exact HE. rewrite HE'. cbn [obind fst snd].
  change (c_epochs (vcf v0)) with (c_epochs (vcf v)). destruct (Z.to_nat (c_epochs (vcf v))) as [|n] eqn:En; [lia|]. cbn [prod_epochs]. change (c_batch (vcf v0)) with (c_batch (vcf v)).
  rewrite (createBatches_hang _ _ _ Hn Hb). reflexivity.
Qed.
(** ** train *)
Lemma vtrain_ok fuel v data epochs batch idx q : (N.of_nat (length data) < 2 ^ 63)%N -> length data < fuel -> VI v -> all_of (input_dim v) data ->
  (forall e, shuffle (length data) (idx e)) -> (c_interp (vcf v) = true -> latent_dim v <= input_dim v) ->
  let bs := size_of_int (if (batch =? -1)%Z then c_batch (vcf v) else batch) in let n := Z.to_nat (if (epochs =? -1)%Z then c_epochs (vcf v) else epochs) in
  (0 < bs)%N -> exists w, vtrain expf logf gauss pgauss fuel v data epochs batch idx q =
   Ret (match n with O => 0%N | S k => mean_of_batches (fun p => legacy_loss expf logf gauss pgauss v (snd p) (q k (fst p))) (N.of_nat (length data) / bs + 1) (cut (N.to_nat bs) (index 0 (map (fun i => nth i data []) (idx k)))) end, w) /\ loud v w.
Proof.
  intros Hn Hf HV HA HS HI bs n Hb. unfold vtrain. fold bs. fold n.
  destruct (train_epochs_ok expf logf tanhf gauss pgauss fuel data bs idx q Hn (conj Hb (size_of_int_lt _)) Hf n v 0 0%N HV HA HS HI) as (w & E & Q). exists w. split; [exact E|exact Q].
Qed.
Lemma size0 z : (z mod 2 ^ 64 = 0)%Z -> size_of_int z = 0%N. Proof. intros H. unfold size_of_int. rewrite H. reflexivity. Qed.
Lemma vtrain_zero fuel v data epochs batch idx q :
  ((if (batch =? -1)%Z then c_batch (vcf v) else batch) mod 2 ^ 64 = 0)%Z -> (0 < if (epochs =? -1)%Z then c_epochs (vcf v) else epochs)%Z ->
  (data <> [] -> vtrain expf logf gauss pgauss fuel v data epochs batch idx q = OutOfFuel) /\
  (data = [] -> 0 < fuel -> vtrain expf logf gauss pgauss fuel v data epochs batch idx q = UB UB_div_zero).
Proof.
  intros Hb He. unfold vtrain. rewrite (size0 _ Hb). destruct (Z.to_nat (if (epochs =? -1)%Z then c_epochs (vcf v) else epochs)) as [|n] eqn:En; [lia|]. cbn [train_epochs]. split.
  - intros Hd. rewrite ranges_hang by (destruct data; [congruence|cbn; lia]). reflexivity.
  - intros -> Hf. destruct fuel; [lia|]. reflexivity.
Qed.
Lemma vtrain_narrow fuel v data epochs batch idx q : VI v -> data <> [] -> 0 < fuel -> (N.of_nat (length data) < 2 ^ 63)%N -> length data < fuel -> all_of (input_dim v) data ->
  (forall e, shuffle (length data) (idx e)) -> c_interp (vcf v) = true -> input_dim v < latent_dim v ->
  ((if (batch =? -1)%Z then c_batch (vcf v) else batch) mod 2 ^ 64 <> 0)%Z -> (0 < if (epochs =? -1)%Z then c_epochs (vcf v) else epochs)%Z ->
  vtrain expf logf gauss pgauss fuel v data epochs batch idx q = UB UB_array_index.
Proof.
  intros HV Hd Hf0 Hn Hf HA HS HC HL Hb He. unfold vtrain. set (bs := size_of_int _). pose proof (size_of_int_pos _ Hb) as Hp. fold bs in Hp. pose proof (size_of_int_lt (if (batch =? -1)%Z then c_batch (vcf v) else batch)) as Hl. fold bs in Hl.
  destruct (Z.to_nat (if (epochs =? -1)%Z then c_epochs (vcf v) else epochs)) as [|n] eqn:En; [lia|]. cbn [train_epochs].
  destruct (ranges_spec (length data) (N.to_nat bs) Hn ltac:(lia) ltac:(rewrite Nnat.N2Nat.id; lia) fuel 0 ltac:(lia) ltac:(auto)) as (rs & E & HM & HF).
  rewrite Nnat.N2Nat.id in E. change (N.of_nat 0) with 0%N in E. rewrite E. cbn [obind].
  assert (Hlen : (0 < N.of_nat (length data))%N) by (destruct data; [congruence|cbn; lia]).
  assert (R0 : exists e rs', rs = (0%N, e) :: rs' /\ (0 < e)%N).
  { destruct fuel as [|f]; [lia|]. cbn [ranges] in E. rewrite (proj2 (N.ltb_lt _ _) Hlen) in E. destruct (ranges f _ _ _) as [r|u|x|]; try discriminate E. cbn [obind] in E. injection E as <-. inversion HF as [|? ? HF1 HF2]. cbn in HF1. eexists _, _. split; [reflexivity|]. lia. }
  destruct R0 as (e & rs' & -> & Pe). cbn [ofold]. unfold train_batch at 1. unfold range. cbn [fst snd]. change (N.to_nat 0) with 0.
  destruct (N.to_nat (e - 0)) as [|k] eqn:Ek; [lia|]. cbn [seq ofold].
  assert (Li : length (idx 0) = length data) by (rewrite (Permutation_length (HS 0)); apply seq_length).
  rewrite (at_ok (idx 0) 0 0) by (rewrite Li; lia). cbn [obind].
  assert (Lt : nth 0 (idx 0) 0 < length data). { pose proof (shuffle_lt _ _ (HS 0)) as F. rewrite Forall_forall in F. apply F. apply nth_In. rewrite Li. lia. }
  rewrite (at_ok data _ [] Lt). cbn [obind]. rewrite (train_sample_ub expf logf tanhf gauss pgauss v _ (q 0 0) HV); [reflexivity| |exact HC|exact HL].
  unfold all_of in HA. rewrite Forall_forall in HA. apply HA. apply nth_In. exact Lt.
Qed.

(** ** files *)
Variables (cfg_bytes : vcfg -> list N) (cfg_of : list N -> vcfg).
Lemma sread_length k s old : length old = k -> length (fst (sread k s old)) = k.
Proof.
  intros L. unfold sread. destruct s as [b ok]. cbn [fst snd]. destruct ok; [|exact L]. destruct (Nat.leb_spec k (length b)); cbn [fst]; [rewrite firstn_length; lia|rewrite app_length, skipn_length; lia].
Qed.
Lemma loadModel_false v file alloc i1 i2 i3 : loadModel expf tanhf cfg_bytes cfg_of v file alloc i1 i2 i3 = Ret (false, v).
Proof.
  unfold loadModel. destruct file as [b|]; [|reflexivity]. pose proof (sread_length 14 (b, true) (repeat 0%N 14) eq_refl) as L. destruct (sread 14 (b, true) (repeat 0%N 14)) as [h s]. cbn [fst] in L.
  destruct (str_eqb_spec h header) as [->|_]; [discriminate L|]. reflexivity.
Qed.
Lemma sread_ok k a rest old : length a = k -> sread k (a ++ rest, true) old = (a, (rest, true)).
Proof.
  intros <-. unfold sread. cbn [fst snd]. rewrite (proj2 (Nat.leb_le _ _)) by (rewrite app_length; lia). rewrite firstn_app, firstn_all, Nat.sub_diag, firstn_O, app_nil_r, skipn_app, skipn_all, Nat.sub_diag. reflexivity.
Qed.
Lemma le_concat_length (l : list nat) : length (concat (map (fun h => le 8 (N.of_nat h)) l)) = 8 * length l.
Proof. induction l as [|a l IH]; [reflexivity|]. cbn [map concat length]. rewrite app_length, le_length, IH. lia. Qed.
Lemma load_saved v o alloc i1 i2 i3 f : (forall a b, length (cfg_bytes a) = length (cfg_bytes b)) -> (forall c, cfg_of (cfg_bytes c) = c) ->
  fits (input_dim o) -> fits (latent_dim o) -> fits (length (hidden o)) -> Forall fits (hidden o) -> alloc (8 * N.of_nat (length (hidden o)))%N = true ->
  vsaveToFile cfg_bytes o true = (true, f) ->
  vloadFromFile expf tanhf cfg_bytes cfg_of v f alloc i1 i2 i3 =
   (e <- initializeEncoder (input_dim o) (latent_dim o) (hidden o) (vlevel v) i1 ;; d <- initializeDecoder expf (input_dim o) (latent_dim o) (hidden o) (vlevel v) i2 ;;
    i <- initializeInterpolator tanhf (latent_dim o) (hidden o) (vlevel v) i3 ;;
    Ret (true, mkVae (self v) e d i (input_dim o) (latent_dim o) (hidden o) (vlevel v) (vcf o) (vmetrics v) (own v))).
Proof.
  intros HL HC F1 F2 F3 F4 HA HS. assert (Ef : f = Some (dims_bytes o ++ cfg_bytes (vcf o))) by (unfold vsaveToFile in HS; congruence). clear HS. subst f. unfold vloadFromFile, load_dims, dims_bytes. rewrite <- !app_assoc.
  rewrite (sread_ok 8) by apply le_length. rewrite (sread_ok 8) by apply le_length. rewrite (sread_ok 8) by apply le_length. cbn [snd negb]. rewrite !le8 by assumption. rewrite HA. cbn [negb].
  rewrite !Nnat.Nat2N.id. rewrite sread_ok by apply le_concat_length.
  assert (EH : map (fun b => N.to_nat (unle b)) (chunks 8 (length (hidden o)) (concat (map (fun h => le 8 (N.of_nat h)) (hidden o)))) = hidden o).
  { rewrite <- (map_length (fun h => le 8 (N.of_nat h)) (hidden o)) at 1. rewrite chunks_concat.
    - rewrite map_map. rewrite <- (map_id (hidden o)) at 2. apply map_ext_in. intros a Ha. rewrite Forall_forall in F4. rewrite le8 by (apply F4, Ha). apply Nnat.Nat2N.id.
    - apply Forall_map. apply Forall_forall. intros a _. apply le_length. }
  rewrite EH. rewrite <- (app_nil_r (cfg_bytes (vcf o))). rewrite sread_ok by apply HL. rewrite HC. reflexivity.
Qed.
Lemma load_short v b alloc i1 i2 i3 : length b < 24 -> vloadFromFile expf tanhf cfg_bytes cfg_of v (Some b) alloc i1 i2 i3 = UB UB_uninit.
Proof.
  intros H. unfold vloadFromFile, load_dims, sread at 1 2 3. cbn [fst snd].
  destruct (Nat.leb_spec 8 (length b)); cbn [fst snd]; [|reflexivity].
  destruct (Nat.leb_spec 8 (length (skipn 8 b))) as [G|G]; cbn [fst snd]; [|reflexivity]. rewrite skipn_length in G.
  destruct (Nat.leb_spec 8 (length (skipn 8 (skipn 8 b)))) as [G'|G']; cbn [fst snd negb]; [|reflexivity]. rewrite !skipn_length in G'. lia.
Qed.
Lemma load_refused v inp lat count rest alloc i1 i2 i3 : fits inp -> fits lat -> (count < 2 ^ 64)%N -> alloc (8 * count)%N = false ->
  vloadFromFile expf tanhf cfg_bytes cfg_of v (Some (le 8 (N.of_nat inp) ++ le 8 (N.of_nat lat) ++ le 8 count ++ rest)) alloc i1 i2 i3 =
  Ret (false, mkVae (self v) (enc v) (dec v) (itp v) inp lat (hidden v) (vlevel v) (vcf v) (vmetrics v) (own v)).
Proof.
  intros F1 F2 F3 HA. unfold vloadFromFile, load_dims. rewrite (sread_ok 8) by apply le_length. rewrite (sread_ok 8) by apply le_length. rewrite (sread_ok 8) by apply le_length.
  cbn [snd negb]. rewrite !le8 by assumption. rewrite HA. cbn [negb]. rewrite !Nnat.Nat2N.id. reflexivity.
Qed.
Lemma encode_mixed v inp lat x rad d : VI v -> length x = input_dim v -> latent_dim v < lat ->
  encode logf (mkVae (self v) (enc v) (dec v) (itp v) inp lat (hidden v) (vlevel v) (vcf v) (vmetrics v) (own v)) x rad d = UB UB_array_index.
Proof.
  intros HV HL HG. destruct (encode_ok expf logf tanhf v x rad d HV HL) as (y & s' & E & Ly & _ & _). unfold encode. cbn [enc latent_dim]. rewrite E. cbn [obind fst snd].
  rewrite (omap_ub _ _ UB_array_index); [reflexivity| |].
  - exists (lat - 1). split; [apply in_seq; lia|]. destruct (at_case y (lat - 1)) as [(a & Ea & _)|[-> _]]; [|reflexivity]. rewrite Ea. cbn [obind]. rewrite (at_ub y) by lia. reflexivity.
  - intros i Hi. destruct (at_case y i) as [(a & Ea & _)|[-> _]]; [|right; reflexivity]. rewrite Ea. cbn [obind]. destruct (at_case y (i + lat)) as [(b & Eb & _)|[-> _]]; [|right; reflexivity]. rewrite Eb. left. eexists. reflexivity.
Qed.
Lemma new_nets_ok inp lat hid lv i1 i2 i3 : no_double_zero (inp :: hid ++ [2 * lat]) -> no_double_zero (lat :: rev hid ++ [inp]) -> 0 < lat ->
  exists e d i, initializeEncoder inp lat hid lv i1 = Ret e /\ initializeDecoder expf inp lat hid lv i2 = Ret d /\ initializeInterpolator tanhf lat hid lv i3 = Ret i.
Proof.
  intros H1 H2 H3.
  destruct (new_net_ok (inp :: hid ++ [2 * lat]) lv i1 leaky linear) as [e E1]; [cbn; rewrite app_length; cbn; lia|exact H1|].
  destruct (new_net_ok (lat :: rev hid ++ [inp]) lv i2 leaky (sigmoid expf)) as [d E2]; [cbn; rewrite app_length; cbn; lia|exact H2|].
  destruct (new_net_ok [2 * lat; match hid with [] => lat | _ => nth (Nat.div (length hid) 2) hid O end; lat] lv i3 (tanh32 tanhf) linear) as [i E3]; [cbn; lia|cbn; lia|].
  exists e, d, i. split; [exact E1|]. split; [exact E2|exact E3].
Qed.
Lemma load_works v o alloc i1 i2 i3 f : VI v -> (forall a b, length (cfg_bytes a) = length (cfg_bytes b)) -> (forall c, cfg_of (cfg_bytes c) = c) ->
  fits (input_dim o) -> fits (latent_dim o) -> fits (length (hidden o)) -> Forall fits (hidden o) -> alloc (8 * N.of_nat (length (hidden o)))%N = true ->
  no_double_zero (enc_sizes o) -> no_double_zero (dec_sizes o) -> 0 < latent_dim o -> vsaveToFile cfg_bytes o true = (true, f) ->
  exists w, vloadFromFile expf tanhf cfg_bytes cfg_of v f alloc i1 i2 i3 = Ret (true, w) /\ (input_dim w, latent_dim w, hidden w, vcf w) = (input_dim o, latent_dim o, hidden o, vcf o) /\
    (self w, vlevel w, own w, vmetrics w) = (self v, vlevel v, own v, vmetrics v) /\
    initializeEncoder (input_dim o) (latent_dim o) (hidden o) (vlevel v) i1 = Ret (enc w) /\ initializeDecoder expf (input_dim o) (latent_dim o) (hidden o) (vlevel v) i2 = Ret (dec w) /\
    initializeInterpolator tanhf (latent_dim o) (hidden o) (vlevel v) i3 = Ret (itp w).
Proof.
  intros HV HL HC F1 F2 F3 F4 HA D1 D2 D3 HS. rewrite (load_saved v o alloc i1 i2 i3 f HL HC F1 F2 F3 F4 HA HS).
  destruct (new_nets_ok (input_dim o) (latent_dim o) (hidden o) (vlevel v) i1 i2 i3 D1 D2 D3) as (e & d & i & E1 & E2 & E3). rewrite E1, E2, E3. cbn [obind].
  eexists. split; [reflexivity|]. cbn. auto 10.
Qed.
End V.
