(** What the ApproximateTMR properties talk about. *)
From Coq Require Import List NArith ZArith Bool.
From Verif Require Import Approx_Model.
Local Open Scope Z_scope.

(** v is a value of the integral type *)
Definition in_range (t : ity) (v : Z) : Prop := In t int_types /\
  (if isg t then - 2 ^ (iw t - 1) <= v < 2 ^ (iw t - 1) else 0 <= v < 2 ^ iw t).
(** get() right after set(v), default configuration *)
Definition stored (t : ity) (v : Z) : at_ := at_set (ireduce t) (ilimitRange t) (icrc t) default_cfg v.
Definition read (t : ity) (s : at_) : Z := at_get Z.eqb (@default_cfg Z) s.
(** step of the reduced-precision copy *)
Definition step (t : ity) : Z := if iw t <=? 16 then 4 else 8.
