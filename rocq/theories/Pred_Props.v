(** C185-C192: the radiation error predictor (advanced/error_prediction.hpp). *)
From Coq Require Import List NArith ZArith Bool SpecFloat Reals Lia.
From Flocq Require Import IEEE754.BinarySingleNaN.
Import ListNotations.
From Verif Require Import Outcome Words Floats FloatsR FloatsS Pred_Model Pred_Spec Pred_Proofs Pred2_Proofs.
Local Open Scope Z_scope.

(** Concrete teaching: output [9;9] should have been [1;2] for input [5]; [8;8] should have been [3;4] for input [6]. *)
Definition lesson : pop := Train [([5], [9; 9]); ([6], [8; 8])] [([5], [1; 2]); ([6], [3; 4])].
Definition f09 : sf := slit 9 10.
Definition f01 : sf := slit 1 10.

Theorem C185_recall : forall ops i o c, known ops o = Some c -> flt (slit 9 10) (last_detection ops) = false ->
  probability (prun ops) i o = slit 9 10 /\ fst (suggest (prun ops) i o) = Some c.
Proof.
  intros ops i o c K D. rewrite probability_spec, suggest_spec, K, D. unfold known in K. destruct (taught ops); [discriminate|]. auto.
Qed.
Example C185_nonvacuous : known [lesson] [9; 9] = Some [1; 2] /\ flt (slit 9 10) (last_detection [lesson]) = false /\ fst (suggest (prun [lesson]) [0] [9; 9]) = Some [1; 2] /\
  known [lesson; Train [([5], [9; 9])] [([5], [7; 7])]] [9; 9] = Some [7; 7].
Proof. repeat split; vm_compute; reflexivity. Qed.

Theorem C186_training : forall ops b g, (fst (train (prun ops) b g) = true <-> accepted b g) /\ (~ accepted b g -> snd (train (prun ops) b g) = prun ops) /\
  (trained (prun ops) = true <-> exists b g, In (Train b g) ops /\ accepted b g).
Proof.
  intros ops b g. rewrite train_result. split; [apply accepted_iff|]. split.
  - intros N. rewrite train_eq. destruct (accepted_b b g) eqn:A; [apply accepted_iff in A; contradiction|reflexivity].
  - destruct (prun_spec ops) as (_ & _ & T & _). rewrite T. clear. induction ops as [|o ops IH] using rev_ind; [cbn; split; [congruence|intros (b & g & [] & _)]|].
    unfold taught. rewrite fold_left_app. cbn [fold_left]. fold (taught ops).
    assert (Step : (exists b g, In (Train b g) (ops ++ [o]) /\ accepted b g) <-> (exists b g, In (Train b g) ops /\ accepted b g) \/ (exists b g, o = Train b g /\ accepted b g)).
    { split.
      - intros (b & g & H & A). apply in_app_or in H. destruct H as [H|[H|[]]]; [left|right]; eauto.
      - intros [(b & g & H & A)|(b & g & -> & A)]; exists b, g; (split; [apply in_or_app; simpl; auto|exact A]). }
    rewrite Step, <- IH. destruct o as [b g|t|t|i x|i x]; try (split; [auto|intros [H|(b & g & H & _)]; [exact H|discriminate]]).
    destruct (accepted_b b g) eqn:A.
    + apply accepted_iff in A. split; [intros _; right; eauto|]. intros _ E. apply app_eq_nil in E. destruct E as [E _]. destruct A as [L N]. destruct b as [|[b1 b2] b]; [congruence|]. destruct g as [|[g1 g2] g]; [discriminate|].
      unfold pairs_of in E. cbn [map combine rev] in E. apply app_eq_nil in E. destruct E; discriminate.
    + split; [auto|]. intros [H|(b' & g' & H & A')]; [exact H|]. injection H as <- <-. apply accepted_iff in A'. congruence.
Qed.
Example C186_nonvacuous : fst (train pred_new [([5], [9])] []) = false /\ fst (train pred_new [] []) = false /\ trained (prun [lesson]) = true /\ trained (prun [Train [] []]) = false.
Proof. repeat split; vm_compute; reflexivity. Qed.

Theorem C187_no_guessing : forall ops i o, known ops o = None -> flt (last_confidence ops) (slit 1 10) = false -> fst (suggest (prun ops) i o) = None.
Proof. intros ops i o K C. rewrite suggest_spec, K. change (fgt (slit 1 10) (last_confidence ops)) with (flt (last_confidence ops) (slit 1 10)). rewrite C. destruct (taught ops); [reflexivity|]. destruct (flt (slit 1 10) (last_detection ops)); reflexivity. Qed.
Example C187_nonvacuous : known [lesson] [9; 8] = None /\ flt (last_confidence [lesson]) (slit 1 10) = false /\ fst (suggest (prun [lesson; SetDetection (S754_zero false)]) [5] [9; 8]) = None.
Proof. repeat split; vm_compute; reflexivity. Qed.

(* nine of ten elements equal a known corrupted output: the free function says "partially corrupted", the class says 0.1 *)
Definition ten : vec := [1; 2; 3; 4; 5; 6; 7; 8; 9; 10].
Definition nine : vec := [1; 2; 3; 4; 5; 6; 7; 8; 9; 0].
Definition ten_lesson : pop := Train [([5], ten)] [([5], [])].
Theorem C188_similar_refuted : exists ops i bad o, known ops bad <> None /\ is_partially_corrupted o bad = true /\ probability (prun ops) i o = slit 1 10.
Proof. exists [ten_lesson], [5], ten, nine. split; [vm_compute; discriminate|]. split; vm_compute; reflexivity. Qed.
Theorem C188_probability_partial : forall ops i o, probability (prun ops) i o =
  match taught ops with [] => slit 5 10 | _ => match known ops o with Some _ => slit 9 10 | None => slit 1 10 end end.
Proof. intros. apply probability_spec. Qed.

(* the same output is wrong for input [5] and right for input [6] *)
Definition context_lesson : pop := Train [([5], [9])] [([5], [1])].
Definition clean_lesson : pop := Train [([6], [8])] [([6], [9])].
Theorem C189_input_refuted : exists ops b g i o c, In (Train b g) ops /\ accepted b g /\ In (i, o) g /\ c <> o /\
  probability (prun ops) i o = slit 9 10 /\ fst (suggest (prun ops) i o) = Some c.
Proof.
  exists [context_lesson; clean_lesson], [([6], [8])], [([6], [9])], [6], [9], [1]. split; [simpl; auto|]. split; [split; [reflexivity|discriminate]|]. split; [simpl; auto|]. split; [discriminate|].
  split; vm_compute; reflexivity.
Qed.
Theorem C189_input_partial : forall ops i i' o, probability (prun ops) i o = probability (prun ops) i' o /\ fst (suggest (prun ops) i o) = fst (suggest (prun ops) i' o).
Proof. intros. rewrite !probability_spec, !suggest_spec. auto. Qed.

(* thresholds 0: the suggestion for [8;7] is the correction of [1;1], not of [8;8] *)
Definition far_lesson : pop := Train [([5], [1; 1]); ([6], [8; 8])] [([5], [100]); ([6], [200])].
Theorem C190_closest_refuted : exists ops i o, known ops [1; 1] = Some [100] /\ known ops [8; 8] = Some [200] /\ o = [8; 7] /\ fst (suggest (prun ops) i o) = Some [100].
Proof. exists [far_lesson; SetDetection (S754_zero false); SetConfidence (S754_zero false)], [0], [8; 7]. repeat split; vm_compute; reflexivity. Qed.
Theorem C190_suggestion_partial : forall ops i o c, fst (suggest (prun ops) i o) = Some c ->
  known ops o = Some c \/
  (known ops o = None /\ flt (last_confidence ops) (slit 1 10) = true /\ exists k, known ops k = Some c /\ forall q w, known ops q = Some w -> q = k \/ lex k q = Lt).
Proof.
  intros ops i o c. rewrite suggest_spec. destruct (taught ops) eqn:T; [discriminate|]. destruct (known ops o) eqn:K; [destruct (flt _ _); [discriminate|]; intros H; left; exact H|].
  destruct (flt (slit 1 10) _); [discriminate|]. destruct (fgt (slit 1 10) (last_confidence ops)) eqn:C; [|discriminate]. intros H. right. split; [reflexivity|]. split; [exact C|].
  destruct (samples (prun ops)) as [|[k v] m] eqn:S; [discriminate|]. cbn in H. injection H as ->. exists k. exact (first_sample ops k c m S).
Qed.

Definition float_ops (ops : list pop) : Prop := forall o, In o ops -> match o with SetDetection t | SetConfidence t => valid_binary 24 128 t = true | _ => True end.
Theorem C191_thresholds : forall ops, float_ops ops -> (0 <= R (last_detection ops) <= 1)%R /\ (0 <= R (last_confidence ops) <= 1)%R /\
  (forall t, oks t -> (0 <= R t <= 1)%R -> R (clamp t) = R t) /\
  detect_th (prun ops) = last_detection ops /\ conf_th (prun ops) = last_confidence ops /\
  (flt (slit 9 10) (last_detection ops) = true -> flt (slit 1 10) (last_detection ops) = true -> forall i o, fst (suggest (prun ops) i o) = None).
Proof.
  intros ops V. destruct (prun_spec ops) as (_ & _ & _ & D & C).
  assert (Range : forall (f : sf -> pop -> sf) d, (forall t o, f t o = t \/ exists x, (o = SetDetection x \/ o = SetConfidence x) /\ f t o = clamp x) -> (0 <= R d <= 1)%R -> (0 <= R (fold_left f ops d) <= 1)%R).
  { intros f d Hf Hd. clear D C. revert d Hd. induction ops as [|o r IH]; intros d Hd; [exact Hd|]. cbn [fold_left]. apply IH; [intros o' Ho; apply V; simpl; auto|].
    destruct (Hf d o) as [-> | (x & Hx & ->)]; [exact Hd|]. apply clamp_range. specialize (V o (or_introl eq_refl)). destruct Hx as [-> | ->]; exact V. }
  split; [|split; [|split; [|split; [exact D|split; [exact C|]]]]].
  - apply Range; [intros t [| | | |]; eauto|]. vm_compute slit. unfold R, SF2R, Defs.F2R. simpl. Lra.lra.
  - apply Range; [intros t [| | | |]; eauto|]. vm_compute slit. unfold R, SF2R, Defs.F2R. simpl. Lra.lra.
  - exact clamp_id.
  - intros H9 H1 i o. rewrite suggest_spec, H9, H1. destruct (taught ops); [reflexivity|]. destruct (known ops o); reflexivity.
Qed.
Example C191_nonvacuous : last_detection [SetDetection S754_nan] = sofZ 1 /\ last_detection [SetDetection (sofZ (-3))] = sofZ 0 /\ last_confidence [SetConfidence (S754_infinity false)] = sofZ 1 /\
  last_confidence [SetConfidence (slit 1 4); lesson] = slit 1 4 /\ flt (slit 9 10) (last_detection [SetDetection (sofZ 1)]) = true.
Proof. repeat split; vm_compute; reflexivity. Qed.

Theorem C192_seventy_percent : forall a b, (Z.of_nat (length a) < 2 ^ 31) -> is_partially_corrupted a b = true <-> (length a = length b /\ a <> [] /\ 7 * Z.of_nat (length a) <= 10 * identical a b).
Proof. exact partial_iff. Qed.
Example C192_nonvacuous : is_partially_corrupted [1; 2; 3; 4; 5; 6; 7; 0; 0; 0] ten = true /\ is_partially_corrupted [1; 2; 3; 4; 5; 6; 0; 0; 0; 0] ten = false /\ is_partially_corrupted [] [] = false /\ identical nine ten = 9.
Proof. repeat split; vm_compute; reflexivity. Qed.

Print Assumptions C185_recall.
Print Assumptions C186_training.
Print Assumptions C187_no_guessing.
Print Assumptions C188_similar_refuted.
Print Assumptions C188_probability_partial.
Print Assumptions C189_input_refuted.
Print Assumptions C189_input_partial.
Print Assumptions C190_closest_refuted.
Print Assumptions C190_suggestion_partial.
Print Assumptions C191_thresholds.
Print Assumptions C192_seventy_percent.
