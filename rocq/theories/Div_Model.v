(** Model of advanced/algorithmic_diversity.hpp (AD): AlgorithmicDiversity<T, ResultType>.
    ResultType is the integers with their order (any totally ordered type behaves alike).  A registered std::function is an
    identity; what it returns or throws when called is an input of [execute].  The three maps always have the same keys, so they are
    one list sorted by name (std::string order = byte order).  Calls are sequential. *)
From Coq Require Import String List NArith ZArith Bool SpecFloat.
Import ListNotations.
From Verif Require Import Outcome Words Floats.
Local Open Scope Z_scope.

(* AD:185-187: one key of the three maps *)
Record impl := mkImpl { nm : string; fn : nat; score : sf; hist : list bool }.
(* AD:185-188 *)
Record div := mkDiv { impls : list impl; hsize : nat }.
(* AD:25 *)
Definition div_new : div := mkDiv [] 10.
(* std::map::operator[] = with the entry's new contents *)
Fixpoint put (e : impl) (l : list impl) : list impl :=
  match l with
  | [] => [e]
  | x :: r => match String.compare (nm e) (nm x) with
              | Lt => e :: x :: r
              | Eq => e :: r
              | Gt => x :: put e r
              end
  end.
(* std::map::find *)
Fixpoint find_impl (n : string) (l : list impl) : option impl :=
  match l with [] => None | x :: r => if String.eqb n (nm x) then Some x else find_impl n r end.
(* AD:34-42 *)
Definition add_impl (s : div) (n : string) (f : nat) (initial : sf) : div :=
  mkDiv (put (mkImpl n f initial (repeat true (hsize s))) (impls s)) (hsize s).
(* AD:116-117: std::count over the size, in double *)
Definition rate (h : list bool) : sf := ddiv (dofZ (Z.of_nat (length (filter (fun b => b) h)))) (dofZ (Z.of_nat (length h))).
(* AD:120-121 *)
Definition blend (old new_reliability : sf) : sf :=
  let decay := dlit 9 10 in dadd (dmul old decay) (dmul new_reliability (dsub (dofZ 1) decay)).
(* AD:111-121 on the entry; vector::erase(begin()) of an empty vector is undefined *)
Definition judged (x : impl) (ok : bool) : outcome impl :=
  match hist x with
  | [] => UB UB_bad_iterator
  | _ :: h => let h' := h ++ [ok] in Ret (mkImpl (nm x) (fn x) (blend (score x) (rate h')) h')
  end.
Fixpoint update_in (n : string) (ok : bool) (l : list impl) : outcome (list impl) :=
  match l with
  | [] => Ret []
  | x :: r => if String.eqb n (nm x) then match judged x ok with Ret x' => Ret (x' :: r) | UB u => UB u | Throw e => Throw e | OutOfFuel => OutOfFuel end
              else match update_in n ok r with Ret r' => Ret (x :: r') | UB u => UB u | Throw e => Throw e | OutOfFuel => OutOfFuel end
  end.
(* AD:104-122; an unknown name changes nothing *)
Definition update (s : div) (n : string) (ok : bool) : outcome div :=
  match update_in n ok (impls s) with Ret l => Ret (mkDiv l (hsize s)) | UB u => UB u | Throw e => Throw e | OutOfFuel => OutOfFuel end.
(* AD:130-133 *)
Definition reliability (s : div) (n : string) : sf :=
  match find_impl n (impls s) with Some x => score x | None => S754_zero false end.
(* AD:143-152: vector::resize keeps the front and appends copies of the fill value *)
Definition resized (h : list bool) (size : nat) : list bool :=
  let fill := match h with [] => true | _ => List.last h true end in
  firstn size h ++ repeat fill (size - length h).
Definition set_history_size (s : div) (size : nat) : div :=
  mkDiv (map (fun x => mkImpl (nm x) (fn x) (score x) (resized (hist x) size)) (impls s)) size.
(* AD:165-171 and AD:89-95: std::max_element with a.second < b.second: the first of the largest *)
Fixpoint top {A} (w : A -> sf) (best : A) (l : list A) : A :=
  match l with [] => best | x :: r => top w (if flt (w best) (w x) then x else best) r end.
(* AD:160-172 *)
Definition most_reliable (s : div) : string :=
  match impls s with [] => EmptyString | x :: r => nm (top score x r) end.
(* AD:180-182 *)
Definition has_impl (s : div) (n : string) : bool := match find_impl n (impls s) with Some _ => true | None => false end.

(* AD:51, 69: std::map<ResultType,double>; operator[] makes a new vote 0.0 *)
Fixpoint vote (r : Z) (w : sf) (l : list (Z * sf)) : list (Z * sf) :=
  match l with
  | [] => [(r, dadd (S754_zero false) w)]
  | (k, v) :: t => match r ?= k with
                   | Lt => (r, dadd (S754_zero false) w) :: (k, v) :: t
                   | Eq => (k, dadd v w) :: t
                   | Gt => (k, v) :: vote r w t
                   end
  end.
(* AD:59: the threshold *)
Definition excluded (x : impl) : bool := flt (score x) (dlit 2 10).
(* what an implementation does when called for a name: returns or throws *)
Inductive answer := Gives (r : Z) | Fails (e : exn).
(* AD:54-75: the entries as they are afterwards, and the votes *)
Fixpoint round_of (ans : string -> nat -> answer) (l : list impl) (votes : list (Z * sf)) : outcome (list impl * list (Z * sf)) :=
  match l with
  | [] => Ret ([], votes)
  | x :: r =>
      if excluded x then
        match round_of ans r votes with Ret (r', v) => Ret (x :: r', v) | UB u => UB u | Throw e => Throw e | OutOfFuel => OutOfFuel end
      else match ans (nm x) (fn x) with
           | Gives k => match round_of ans r (vote k (score x) votes) with Ret (r', v) => Ret (x :: r', v) | UB u => UB u | Throw e => Throw e | OutOfFuel => OutOfFuel end
           | Fails _ => match judged x false with
                        | Ret x' => match round_of ans r votes with Ret (r', v) => Ret (x' :: r', v) | UB u => UB u | Throw e => Throw e | OutOfFuel => OutOfFuel end
                        | UB u => UB u | Throw e => Throw e | OutOfFuel => OutOfFuel
                        end
           end
  end.
(* AD:50-96.  The object as it is afterwards, and the result or the exception; [again]: what the implementation called by the
   fallback does *)
Inductive result := Value (r : Z) | Raised (e : exn).
Definition execute (s : div) (ans again : string -> nat -> answer) : outcome (div * result) :=
  match round_of ans (impls s) [] with
  | Ret (l, votes) =>
      let s' := mkDiv l (hsize s) in
      match votes with
      | [] => let n := most_reliable s' in
              if String.eqb n EmptyString then Ret (s', Raised E_runtime_error)
              else match find_impl n l with
                   | Some x => match again n (fn x) with Gives r => Ret (s', Value r) | Fails e => Ret (s', Raised e) end
                   | None => Ret (s', Raised E_bad_alloc)   (* not reached: [n] is a key *)
                   end
      | v :: r => Ret (s', Value (fst (top snd v r)))
      end
  | UB u => UB u | Throw e => Throw e | OutOfFuel => OutOfFuel
  end.
