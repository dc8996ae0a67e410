(** What a user of a redundant container relies on, stated over plain histories and
    without reference to the voting code. *)
From Coq Require Import List Bool Arith Permutation.
Import ListNotations.

(** operator== of the protected type decides equality. *)
Definition lawful {T} (eqb : T -> T -> bool) : Prop := forall x y, eqb x y = true <-> x = y.

(** A history of user operations and radiation upsets. *)
Inductive op (T : Type) :=
| Set_ (v : T)                 (* user stores v *)
| Upset (copy : nat) (w : T)   (* radiation overwrites one copy *)
| Repair.                      (* user calls repair() *)
Arguments Set_ {T}. Arguments Upset {T}. Arguments Repair {T}.

(** The value the user last stored. *)
Fixpoint last_set {T} (v : T) (h : list (op T)) : T :=
  match h with
  | [] => v
  | Set_ w :: r => last_set w r
  | _ :: r => last_set v r
  end.

(** At most one copy is hit between two consecutive Set_/Repair operations
    ([hit]: the copy already hit in the current interval).  The same copy may be hit
    repeatedly. *)
Fixpoint spaced {T} (hit : option nat) (h : list (op T)) : bool :=
  match h with
  | [] => true
  | Set_ _ :: r => spaced None r
  | Repair :: r => spaced None r
  | Upset i _ :: r =>
      match hit with
      | None => spaced (Some i) r
      | Some j => (i =? j) && spaced hit r
      end
  end.

(** Histories of tmr::TMR calls, for the statistics. *)
Inductive call (T : Type) :=
| CGet | CSet (v : T) | CSetRaw (i : nat) (w : T) | CReset.
Arguments CGet {T}. Arguments CSet {T}. Arguments CSetRaw {T}. Arguments CReset {T}.

(** The three copies, by definition of the calls. *)
Definition spec_copies {T} (cs : T * T * T) (c : call T) : T * T * T :=
  let '(x, y, z) := cs in
  match c with
  | CSet v => (v, v, v)
  | CSetRaw 0 w => (w, y, z)
  | CSetRaw 1 w => (x, w, z)
  | CSetRaw 2 w => (x, y, w)
  | _ => cs
  end.

(** Reference bookkeeping: counters since the last reset and the log of corrections. *)
Record books (T : Type) := mkbooks
  { b_detected : nat; b_corrected : nat; b_uncorrectable : nat; b_log : list (T * T) }.
Arguments mkbooks {T}. Arguments b_detected {T}. Arguments b_corrected {T}.
Arguments b_uncorrectable {T}. Arguments b_log {T}.

(** [booked copies h b b']: reading history [h] from [copies] takes books [b] to [b']. *)
Inductive booked {T} : T * T * T -> list (call T) -> books T -> books T -> Prop :=
| bk_nil cs b : booked cs [] b b
| bk_set cs v h b b' : booked (v, v, v) h b b' -> booked cs (CSet v :: h) b b'
| bk_raw cs i w h b b' :
    booked (spec_copies cs (CSetRaw i w)) h b b' -> booked cs (CSetRaw i w :: h) b b'
| bk_reset cs h b b' :
    booked cs h (mkbooks 0 0 0 (b_log b)) b' -> booked cs (CReset :: h) b b'
| bk_get_ok v h b b' : booked (v, v, v) h b b' -> booked (v, v, v) (CGet :: h) b b'
| bk_get_corr cs good bad h b b' :
    good <> bad ->
    Permutation [fst (fst cs); snd (fst cs); snd cs] [good; good; bad] ->
    booked cs h (mkbooks (S (b_detected b)) (S (b_corrected b)) (b_uncorrectable b)
                         (b_log b ++ [(good, bad)])) b' ->
    booked cs (CGet :: h) b b'
| bk_get_unc x y z h b b' :
    x <> y -> x <> z -> y <> z ->
    booked (x, y, z) h (mkbooks (S (b_detected b)) (b_corrected b) (S (b_uncorrectable b))
                                (b_log b)) b' ->
    booked (x, y, z) (CGet :: h) b b'.
