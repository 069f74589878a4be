(** Numpy-level primitives and Python exceptions used by the model.
    Each definition names the numpy/Python operation whose documented
    semantics it follows. *)
From Coq Require Export List Arith ZArith Bool Lia Permutation.
Export ListNotations.

(** Python exceptions as values.  [Hang] stands for a loop that never exits. *)
Inductive exn :=
| KeyError | ValueError | RuntimeError | TypeError | IndexError
| UnboundLocalError | NotImplemented | Hang.

Inductive res (A : Type) := Ok (a : A) | Raise (e : exn).
Arguments Ok {A} a.
Arguments Raise {A} e.

Definition bind {A B} (x : res A) (f : A -> res B) : res B :=
  match x with Ok a => f a | Raise e => Raise e end.

Notation "'do' x <- e ; f" := (bind e (fun x => f))
  (at level 200, x pattern, e at level 100, f at level 200, right associativity).

(** [np.argwhere] / [np.where(l)[0]] on a one-dimensional boolean array. *)
Definition argwhere (l : list bool) : list nat :=
  filter (fun i => nth i l false) (seq 0 (length l)).

Definition mem (i : nat) (l : list nat) : bool := existsb (Nat.eqb i) l.

(** [locs[rs]]: integer-array indexing; IndexError when out of range. *)
Fixpoint gather (locs rs : list nat) : res (list nat) :=
  match rs with
  | [] => Ok []
  | r :: rs' =>
      match nth_error locs r with
      | None => Raise IndexError
      | Some x => do t <- gather locs rs'; Ok (x :: t)
      end
  end.

(** [l[idx] = True]; IndexError when an index is out of range. *)
Definition set_true (l : list bool) (idx : list nat) : res (list bool) :=
  if forallb (fun i => i <? length l) idx
  then Ok (map (fun i => nth i l false || mem i idx) (seq 0 (length l)))
  else Raise IndexError.

(** Element-wise [np.logical_and]/[np.logical_or] on equal-length arrays
    (ValueError otherwise; the broadcasting of length-1 arrays is not
    modelled). *)
Fixpoint zipb (f : bool -> bool -> bool) (a b : list bool) : res (list bool) :=
  match a, b with
  | [], [] => Ok []
  | x :: a', y :: b' => do t <- zipb f a' b'; Ok (f x y :: t)
  | _, _ => Raise ValueError
  end.

(** [~l]. *)
Definition np_not (l : list bool) : list bool := map negb l.

(** [l[0:k]] for a Python integer [k], negative [k] counting from the end. *)
Definition pyslice {A} (k : Z) (l : list A) : list A :=
  if (k <? 0)%Z then firstn (length l - Z.to_nat (- k)) l
  else firstn (Z.to_nat k) l.

(** [np.setdiff1d x y] for [x] sorted without duplicates. *)
Definition setdiff1d (x y : list nat) : list nat :=
  filter (fun i => negb (mem i y)) x.
