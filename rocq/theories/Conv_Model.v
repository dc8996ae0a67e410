(** Model of inference/layers/conv_layer.hpp (CL): ConvolutionalLayer<T, InputChannels, OutputChannels, InputHeight, InputWidth,
    KernelSize, Stride, Padding> with T = FixedPoint over the integer type [t] with [F] fraction bits (Bits_Model: a value is its raw
    integer) and TMR<T> = core::redundancy::TripleModularRedundancy (SimpleTMR_Model).  Arrays are functions of their indices; every
    read of the input and every access of a parameter checks its indices against the dimensions.  Stride is at least 1 (0 does not
    compile). *)
From Coq Require Import List NArith ZArith Bool.
Import ListNotations.
From Verif Require Import Outcome Words SimpleTMR_Model Approx_Model Bits_Model.
Local Open Scope Z_scope.
Local Open Scope outcome_scope.

(* CL:32-41 *)
Record dims := mkDims { in_ch : Z; out_ch : Z; in_h : Z; in_w : Z; ksize : Z; stride : Z; pad : Z }.
(* CL:45-46, in size_t *)
Definition u64 (x : Z) : Z := x mod 2 ^ 64.
Definition out_dim (d : dims) (n : Z) : Z := u64 (u64 (u64 (n - ksize d) + u64 (2 * pad d)) / stride d + 1).
Definition out_h (d : dims) : Z := out_dim d (in_h d).
Definition out_w (d : dims) : Z := out_dim d (in_w d).

(* CL:171-175 *)
Record layer := mkLayer { weights : Z -> Z -> Z -> Z -> copies3 Z; biases : Z -> copies3 Z }.
(* CL:51-63: every TMR object is assigned T(0) *)
Definition layer_new : layer := mkLayer (fun _ _ _ _ => core_new 0) (fun _ => core_new 0).
Definition inside (n i : Z) : bool := (0 <=? i) && (i <? n).
(* CL:74-81; the assertions are off (NDEBUG): an index outside is undefined behaviour *)
Definition set_weight (d : dims) (l : layer) (oc ic kh kw v : Z) : outcome layer :=
  if inside (out_ch d) oc && inside (in_ch d) ic && inside (ksize d) kh && inside (ksize d) kw then
    Ret (mkLayer (fun a b c e => if (a =? oc) && (b =? ic) && (c =? kh) && (e =? kw) then core_set (weights l a b c e) v else weights l a b c e) (biases l))
  else UB UB_array_index.
(* CL:89-93 *)
Definition set_bias (d : dims) (l : layer) (oc v : Z) : outcome layer :=
  if inside (out_ch d) oc then Ret (mkLayer (weights l) (fun a => if a =? oc then core_set (biases l a) v else biases l a)) else UB UB_array_index.
(* CL:157-168 *)
Definition repair (l : layer) : layer := mkLayer (fun a b c e => core_repair Z.eqb (weights l a b c e)) (fun a => core_repair Z.eqb (biases l a)).

(* 0, 1, ..., n-1 *)
Definition upto (n : Z) : list Z := map Z.of_nat (seq 0 (Z.to_nat n)).
Fixpoint ofold {A B} (f : B -> A -> outcome B) (l : list A) (b : B) : outcome B :=
  match l with [] => Ret b | x :: r => b' <- f b x ;; ofold f r b' end.
Fixpoint omap {A B} (f : A -> outcome B) (l : list A) : outcome (list B) :=
  match l with [] => Ret [] | x :: r => y <- f x ;; ys <- omap f r ;; Ret (y :: ys) end.
Section Forward.
Variables (t : ity) (F : Z) (d : dims).
(* CL:129-130: static_cast<int>(start) + static_cast<int>(k) - static_cast<int>(Padding) in int *)
Definition position (start k : Z) : outcome Z :=
  a <- arith int32 (icast int32 start + icast int32 k) ;; arith int32 (a - icast int32 (pad d)).
(* CL:126-142 for one (ic, kh, kw) *)
Definition tap (l : layer) (input : Z -> Z -> Z -> Z) (oc ih_start iw_start : Z) (sum : Z) (k : Z * Z * Z) : outcome Z :=
  let '(ic, kh, kw) := k in
  ih <- position ih_start kh ;;
  iw <- position iw_start kw ;;
  if (0 <=? ih) && (ih <? icast int32 (in_h d)) && (0 <=? iw) && (iw <? icast int32 (in_w d)) then
    if inside (in_ch d) ic && inside (in_h d) ih && inside (in_w d) iw then
      p <- fp_mul t F (core_get Z.eqb (weights l oc ic kh kw)) (input ic ih iw) ;;
      fp_add t sum p
    else UB UB_array_index
  else Ret sum.
(* CL:125-127: the order of the three loops *)
Definition taps : list (Z * Z * Z) :=
  flat_map (fun ic => flat_map (fun kh => map (fun kw => (ic, kh, kw)) (upto (ksize d))) (upto (ksize d))) (upto (in_ch d)).
(* CL:118-146 *)
Definition pixel (l : layer) (input : Z -> Z -> Z -> Z) (oc oh ow : Z) : outcome Z :=
  ofold (tap l input oc (u64 (oh * stride d)) (u64 (ow * stride d))) taps (core_get Z.eqb (biases l oc)).
(* CL:101-150 *)
Definition forward (l : layer) (input : Z -> Z -> Z -> Z) : outcome (list (list (list Z))) :=
  omap (fun oc => omap (fun oh => omap (fun ow => pixel l input oc oh ow) (upto (out_w d))) (upto (out_h d))) (upto (out_ch d)).
End Forward.
