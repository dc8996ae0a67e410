From Coq Require Import List NArith ZArith Bool Lia.
Import ListNotations.
From Verif Require Import Outcome Words Arith Floats Crc_Model CrcTMR_Model CrcTMR_Proofs Approx_Model Approx_Spec.
Local Open Scope Z_scope.

Lemma icast_id t v : in_range t v -> icast t v = v.
Proof.
  intros [Ht H]. unfold icast. cbn in Ht.
  repeat (destruct Ht as [<-|Ht]; [cbn in *; rewrite Z.mod_small; lia|]). destruct Ht.
Qed.
Lemma ireduce_floor t v : in_range t v -> ireduce t v = v - v mod step t.
Proof.
  intros [Ht H]. unfold ireduce, step.
  assert (K : forall s, 0 <= s -> Z.shiftl (Z.shiftr v s) s = v - v mod 2 ^ s).
  { intros s Hs. rewrite Z.shiftl_mul_pow2, Z.shiftr_div_pow2 by lia.
    pose proof (Z.div_mod v (2 ^ s)). assert (0 < 2 ^ s) by (apply Z.pow_pos_nonneg; lia). lia. }
  destruct (Z.leb_spec (iw t) 16) as [L|L]; rewrite K by lia.
  - change (2 ^ 2) with 4. apply icast_id. split; [exact Ht|]. assert (B := Z.mod_pos_bound v 4).
    assert (E := Z.div_mod v 4). revert B E. generalize (v mod 4) (v / 4). intros r q B E.
    cbn in Ht. repeat (destruct Ht as [<-|Ht]; [cbn in H, L |- *; lia|]). destruct Ht.
  - change (2 ^ 3) with 8. apply icast_id. split; [exact Ht|]. assert (B := Z.mod_pos_bound v 8).
    assert (E := Z.div_mod v 8). revert B E. generalize (v mod 8) (v / 8). intros r q B E.
    cbn in Ht. repeat (destruct Ht as [<-|Ht]; [cbn in H, L |- *; lia|]). destruct Ht.
Qed.
(* the clamp: identity, or an odd number *)
Lemma ilimit_odd t v : in_range t v -> ilimitRange t v = v \/ ilimitRange t v mod 2 = 1.
Proof.
  intros [Ht H]. unfold ilimitRange, ilimit, imax. cbn in Ht.
  repeat (destruct Ht as [<-|Ht]; [cbn -[Z.ltb]; repeat match goal with |- context [?a <? ?b] => destruct (a <? b) end; auto|]).
  destruct Ht.
Qed.
Lemma ilimit_signed t v : in_range t v -> isg t = true ->
  ilimitRange t v = Z.max (- (2 ^ (iw t - 2) - 1)) (Z.min v (2 ^ (iw t - 2) - 1)).
Proof.
  intros [Ht H] Hs. unfold ilimitRange, ilimit, imax. cbn in Ht.
  destruct Ht as [<-|[<-|[<-|[<-|[<-|[<-|[<-|[<-|[]]]]]]]]]; try discriminate Hs; clear Hs H;
    cbn -[Z.ltb Z.max Z.min];
    match goal with |- context [?a <? v] => destruct (Z.ltb_spec a v) end;
    match goal with |- context [?a <? ?b] => destruct (Z.ltb_spec a b) end; Z.div_mod_to_equations; lia.
Qed.
Lemma ilimit_unsigned_const t v : in_range t v -> isg t = false -> ilimitRange t v = 2 ^ (iw t - 1) + 1.
Proof.
  intros [Ht H] Hs. unfold ilimitRange, ilimit, imax. cbn in Ht.
  destruct Ht as [<-|[<-|[<-|[<-|[<-|[<-|[<-|[<-|[]]]]]]]]]; try discriminate Hs; cbn in H; clear Hs;
    cbn -[Z.ltb];
    match goal with |- context [?a <? v] => destruct (Z.ltb_spec a v) end;
    match goal with |- context [?a <? ?b] => destruct (Z.ltb_spec a b) end; Z.div_mod_to_equations; lia.
Qed.

Lemma red_even t v : in_range t v -> ireduce t v mod 2 = 0.
Proof.
  intros H. rewrite ireduce_floor by exact H. unfold step.
  destruct (iw t <=? 16); [assert (E := Z.div_mod v 4); replace (v - v mod 4) with (v / 4 * 2 * 2) by lia
                          |assert (E := Z.div_mod v 8); replace (v - v mod 8) with (v / 8 * 4 * 2) by lia]; apply Z.mod_mul; lia.
Qed.
Lemma red_lim t v : in_range t v -> ireduce t v = ilimitRange t v -> ilimitRange t v = v.
Proof.
  intros H E. destruct (ilimit_odd t v H) as [O|O]; [exact O|]. rewrite <- E, (red_even t v H) in O. discriminate.
Qed.
Lemma approx_exact t v : in_range t v -> read t (stored t v) = v.
Proof.
  intros H. unfold read, stored, at_get, at_set. cbn.
  destruct (Z.eqb_spec v (ireduce t v)); [reflexivity|]. destruct (Z.eqb_spec v (ilimitRange t v)); [reflexivity|].
  destruct (Z.eqb_spec (ireduce t v) (ilimitRange t v)) as [E|E]; [|reflexivity].
  rewrite E. apply red_lim; assumption.
Qed.
Lemma bool_wrong : at_get Bool.eqb default_cfg (at_set breduce blimitRange (fun _ => 0%N) default_cfg true) = false.
Proof. reflexivity. Qed.
Lemma bool_false_ok : at_get Bool.eqb default_cfg (at_set breduce blimitRange (fun _ => 0%N) default_cfg false) = false.
Proof. reflexivity. Qed.
(* the float 1000000.0625 *)
Lemma float_wrong : at_get (eqT F32) default_cfg (at_set freduce (flimitRange F32) (fcrc F32) default_cfg 0x49742401%N) = 0x49742400%N.
Proof. reflexivity. Qed.
(* a float survives unless it lies within 32 patterns above the limit *)
Lemma float_exact t v : is_int t = false -> eqT t v v = true ->
  eqT t (freduce v) (flimitRange t v) = false \/ eqT t v (flimitRange t v) = true \/ eqT t v (freduce v) = true ->
  at_get (eqT t) default_cfg (at_set freduce (flimitRange t) (fcrc t) default_cfg v) = v.
Proof.
  intros Ht Hv H. unfold at_get, at_set. cbn.
  destruct (eqT t v (freduce v)); [reflexivity|]. destruct (eqT t v (flimitRange t v)); [reflexivity|].
  destruct (eqT t (freduce v) (flimitRange t v)) eqn:E; [|reflexivity]. destruct H as [H|[H|H]]; discriminate.
Qed.

(** C31 *)
Lemma corrupt_exact t v u : read t (at_corrupt 0 u (stored t v)) = if ireduce t v =? ilimitRange t v then ireduce t v else u.
Proof.
  unfold read, stored, at_get, at_set, at_corrupt. cbn.
  destruct (Z.eqb_spec u (ireduce t v)) as [->|]; [destruct (_ =? _); reflexivity|].
  destruct (Z.eqb_spec u (ilimitRange t v)) as [->|].
  - destruct (Z.eqb_spec (ireduce t v) (ilimitRange t v)) as [E|E]; [congruence|reflexivity].
  - destruct (ireduce t v =? ilimitRange t v); reflexivity.
Qed.
Lemma corrupt_other t v u k : k = 1%nat \/ k = 2%nat ->
  let r := read t (at_corrupt k u (stored t v)) in r = v \/ r = ireduce t v \/ r = ilimitRange t v.
Proof.
  intros [->| ->]; unfold read, stored, at_get, at_set, at_corrupt; cbn.
  - destruct (v =? u); [auto|]. destruct (v =? ilimitRange t v); [auto|].
    destruct (Z.eqb_spec u (ilimitRange t v)); [right; right; exact e|auto].
  - destruct (v =? ireduce t v); [auto|]. destruct (v =? u); [auto|]. destruct (ireduce t v =? u); auto.
Qed.
Lemma exact_unmasked_iff t v : in_range t v ->
  ((forall u, read t (at_corrupt 0 u (stored t v)) = u) <-> ireduce t v <> ilimitRange t v).
Proof.
  intros H. split.
  - intros A E. specialize (A (ireduce t v + 1)). rewrite corrupt_exact, E, Z.eqb_refl in A. lia.
  - intros E u. rewrite corrupt_exact. destruct (Z.eqb_spec (ireduce t v) (ilimitRange t v)); [contradiction|reflexivity].
Qed.
(* unsigned types: always unmasked; signed: unmasked unless v is a multiple of the step inside the limit *)
Lemma unsigned_unmasked t v u : in_range t v -> isg t = false -> read t (at_corrupt 0 u (stored t v)) = u.
Proof.
  intros H Hs. apply exact_unmasked_iff; [exact H|]. rewrite (ilimit_unsigned_const t v H Hs). intros E.
  assert (O := red_even t v H). rewrite E in O. destruct H as [Ht _]. cbn in Ht.
  repeat (destruct Ht as [<-|Ht]; [try discriminate; vm_compute in O; discriminate|]). destruct Ht.
Qed.
Lemma signed_masked t v u : in_range t v -> isg t = true -> v mod step t = 0 -> Z.abs v < 2 ^ (iw t - 2) ->
  read t (at_corrupt 0 u (stored t v)) = v.
Proof.
  intros H Hs Hm Ha. rewrite corrupt_exact. rewrite (ilimit_signed t v H Hs).
  rewrite (ireduce_floor t v H), Hm. replace (Z.max _ _) with v by lia. replace (v - 0) with v by lia. rewrite Z.eqb_refl. lia.
Qed.
Lemma approx_repair t s : at_repair Z.eqb (ireduce t) (ilimitRange t) (icrc t) default_cfg s = stored t (read t s).
Proof. reflexivity. Qed.
Lemma approx_verify t v : at_verify (icrc t) (stored t v) = true.
Proof. unfold at_verify, stored, at_set. cbn. rewrite !N.eqb_refl. reflexivity. Qed.
(* with another configuration: two EXACT copies mask anything *)
Lemma two_exact t c v k u : y0 c = EXACT -> y1 c = EXACT -> y2 c = EXACT -> (k < 3)%nat ->
  at_get Z.eqb c (at_corrupt k u (at_set (ireduce t) (ilimitRange t) (icrc t) c v)) = v.
Proof.
  intros E0 E1 E2 Hk. unfold at_get, at_set. rewrite E0, E1, E2. cbn [approximate is_exact].
  destruct k as [|[|[|k]]]; [| | |lia]; cbn [at_corrupt a0 a1 a2]; rewrite ?Z.eqb_refl; cbn;
    repeat match goal with |- context [?a =? ?b] => destruct (Z.eqb_spec a b) end; congruence.
Qed.
