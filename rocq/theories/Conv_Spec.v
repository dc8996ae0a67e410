(** What the properties of ConvolutionalLayer speak about. *)
From Coq Require Import List NArith ZArith Bool.
Import ListNotations.
From Verif Require Import Outcome Words SimpleTMR_Model Approx_Model Approx_Spec Bits_Model Bits_Spec Conv_Model.
Local Open Scope Z_scope.

(** Sensible dimensions: everything far below 2^31 (arrays of that size do not exist), stride at least 1, the kernel fits the padded input. *)
Definition sane (d : dims) : Prop :=
  0 < in_ch d < 2 ^ 24 /\ 0 < out_ch d < 2 ^ 24 /\ 0 < in_h d < 2 ^ 24 /\ 0 < in_w d < 2 ^ 24 /\ 0 < ksize d < 2 ^ 24 /\ 0 < stride d < 2 ^ 24 /\ 0 <= pad d < 2 ^ 24.
Definition fits (d : dims) : Prop := ksize d <= in_h d + 2 * pad d /\ ksize d <= in_w d + 2 * pad d.

(** A layer whose parameters hold given values in all three copies. *)
Definition holds (l : layer) (w : Z -> Z -> Z -> Z -> Z) (b : Z -> Z) : Prop :=
  (forall oc ic kh kw, weights l oc ic kh kw = mk3 (w oc ic kh kw) (w oc ic kh kw) (w oc ic kh kw)) /\ (forall oc, biases l oc = mk3 (b oc) (b oc) (b oc)).

(** The padded input: zero outside. *)
Definition padded (d : dims) (x : Z -> Z -> Z -> Z) (ic i j : Z) : Z :=
  if (0 <=? i) && (i <? in_h d) && (0 <=? j) && (j <? in_w d) then x ic i j else 0.
Definition total (f : Z -> Z) (n : Z) : Z := fold_right Z.add 0 (map f (map Z.of_nat (seq 0 (Z.to_nat n)))).
(** The textbook cross-correlation in the product [mul]. *)
Definition correlation (mul : Z -> Z -> Z) (d : dims) (w : Z -> Z -> Z -> Z -> Z) (b : Z -> Z) (x : Z -> Z -> Z -> Z) (oc oh ow : Z) : Z :=
  b oc + total (fun ic => total (fun kh => total (fun kw => mul (w oc ic kh kw) (padded d x ic (oh * stride d + kh - pad d) (ow * stride d + kw - pad d))) (ksize d)) (ksize d)) (in_ch d).
(** The fixed-point product: the real product rounded down to a multiple of 2^-F. *)
Definition fxmul (F a b : Z) : Z := a * b / 2 ^ F.
(** Storage types of the fixed-point formats in use: 8, 16 and 32 bits, signed. *)
Definition good_type (t : ity) : Prop := In t [mki 8 true; mki 16 true; mki 32 true].
(** Magnitudes small enough for every intermediate result. *)
Definition small (t : ity) (F : Z) (d : dims) (w : Z -> Z -> Z -> Z -> Z) (b : Z -> Z) (x : Z -> Z -> Z -> Z) : Prop :=
  exists W X B, (forall oc ic kh kw, Z.abs (w oc ic kh kw) <= W) /\ (forall ic i j, Z.abs (x ic i j) <= X) /\ (forall oc, Z.abs (b oc) <= B) /\
    W <= imax t /\ X <= imax t /\ B + in_ch d * ksize d * ksize d * (W * X / 2 ^ F + 1) <= imax t.
(** Shape of a result. *)
Definition entry (out : list (list (list Z))) (oc oh ow : Z) : option Z :=
  match nth_error out (Z.to_nat oc) with
  | Some rows => match nth_error rows (Z.to_nat oh) with Some row => nth_error row (Z.to_nat ow) | None => None end
  | None => None
  end.

(** Radiation: at most one of the three copies of each parameter replaced by anything. *)
Definition one_hit (c c' : copies3 Z) : Prop := exists i v, c' = write3 c i v.
Definition struck (l l' : layer) : Prop :=
  (forall oc ic kh kw, one_hit (weights l oc ic kh kw) (weights l' oc ic kh kw)) /\ (forall oc, one_hit (biases l oc) (biases l' oc)).
(** Same results for every input. *)
Definition same_outputs (t : ity) (F : Z) (d : dims) (l l' : layer) : Prop := forall input, forward t F d l input = forward t F d l' input.
(** Missions: strikes, each followed by a repair before the next one, and parameter updates; [w] and [b] are the values last set. *)
Inductive mission (d : dims) : (Z -> Z -> Z -> Z -> Z) -> (Z -> Z) -> layer -> Prop :=
| M_new : mission d (fun _ _ _ _ => 0) (fun _ => 0) layer_new
| M_strike w b l l' : mission d w b l -> struck l l' -> mission d w b (repair l')
| M_weight w b l l' oc ic kh kw v : mission d w b l -> set_weight d l oc ic kh kw v = Ret l' ->
    mission d (fun a b c e => if (a =? oc) && (b =? ic) && (c =? kh) && (e =? kw) then v else w a b c e) b l'
| M_bias w b l l' oc v : mission d w b l -> set_bias d l oc v = Ret l' -> mission d w (fun a => if a =? oc then v else b a) l'.
(** 8- and 16-bit storage; every stored copy a value of the storage type. *)
Definition narrow (t : ity) : Prop := In t [mki 8 true; mki 16 true].
Definition in_type (t : ity) (l : layer) : Prop :=
  (forall oc ic kh kw, in_range t (c0 (weights l oc ic kh kw)) /\ in_range t (c1 (weights l oc ic kh kw)) /\ in_range t (c2 (weights l oc ic kh kw))) /\
  (forall oc, in_range t (c0 (biases l oc)) /\ in_range t (c1 (biases l oc)) /\ in_range t (c2 (biases l oc))).
