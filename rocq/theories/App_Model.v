(** Files with strings appended to their names: emc2/core/model.py 334-398,
    [remove_appended_str].  Attributes are not modelled. *)
From Coq Require Import Reals.
From Verif Require Export Load_Model Mom_Base.
Local Open Scope string_scope.
Local Open Scope list_scope.

(** [s[n:]] and [s[:s.find(a)]] where [a] occurs in [s]. *)
Definition drop_str (n : nat) (s : string) : string := String.substring n (String.length s - n) s.
Definition head_at (a s : string) : option string :=
  match String.index 0 a s with Some n => Some (String.substring 0 n s) | None => None end.

(** [ds.rename(dict)] of variables and dimensions.  A name that is neither, or
    two variables with one name, fail with ValueError; two dimensions with one
    name are not modelled (ValueError). *)
Definition newname (l : list (string * string)) (s : string) : string :=
  match assoc l s with Some t => t | None => s end.
Fixpoint distinct (l : list string) : bool :=
  match l with [] => true | a :: r => negb (memb a r) && distinct r end.
Definition rename_all (l : list (string * string)) (x : xds) : res xds :=
  let names := map fst (all_vars x) in
  let f := newname l in
  if forallb (fun p => memb (fst p) names || has_dim x (fst p)) l
     && distinct (map f names) && distinct (map f (all_dims x)) then
    let g (p : string * var) := (f (fst p), {| vdims := map f (vdims (snd p)); vat := vat (snd p) |}) in
    Ok {| sz := fun d => match find (fun c => String.eqb (f c) d) (all_dims x) with
                         | Some c => sz x c
                         | None => sz x d
                         end;
          coords := map g (coords x); vars := map g (vars x) |}
  else Raise ValueError.

(** 382-398: one of the coordinates; [out_coords] are the dimensions of the
    file before the first renaming. *)
Definition add_stripped (a : string) (l : list (string * string)) (names : list string) : list (string * string) :=
  fold_left (fun l n => match head_at a n with Some b => put l n b | None => l end) names l.
Definition strip_coord (out_coords : list string) (x : xds) (c : string) : res xds :=
  match filter (String.prefix c) out_coords with
  | [d] =>
      if Nat.ltb (String.length c) (String.length d) then
        let a := drop_str (String.length c) d in
        rename_all (add_stripped a (add_stripped a [] out_coords) (map fst (vars x))) x
      else Ok x
  | _ => Raise ValueError                   (* [np.argwhere(...).item()] *)
  end.

(** 357-381: sub-domains side by side.  [dims] lists the dimensions of the
    file in the order in which xarray shows them. *)
Definition appended (lat : string) (dims : list string) : list string :=
  map (drop_str (String.length lat)) (filter (String.prefix (lat ++ "_")) dims).
(** The names without appended string, in the order in which they are found. *)
Definition bases (sufs names : list string) : list string :=
  fold_left (fun l n => fold_left (fun l a => match head_at a n with
                                              | Some b => if memb b l then l else l ++ [b]
                                              | None => l
                                              end) sufs l) names [].
(** [np.concatenate((v, w), axis=-1)] of arrays with shapes [lead ++ [n]] and [lead ++ [k]]. *)
Definition vconcat (n : nat) (v w : var) : var :=
  {| vdims := vdims v;
     vat := fun ix => if Nat.ltb (last ix 0) n then vat v ix else vat w (removelast ix ++ [last ix 0 - n]) |}.
Fixpoint concat_all (x : xds) (n : nat) (acc : var) (lead : list nat) (base : string) (sufs : list string) : res (nat * var) :=
  match sufs with
  | [] => Ok (n, acc)
  | a :: r =>
      do w <- getv x (base ++ a)%string;
      if list_eq_dec Nat.eq_dec (removelast (shape x w)) lead then
        match shape x w with
        | [] => Raise ValueError
        | _ => concat_all x (n + last (shape x w) 0) (vconcat n acc w) lead base r
        end
      else Raise ValueError
  end.
Definition drop_vars (names : list string) (x : xds) : xds :=
  let keep (p : string * var) := negb (memb (fst p) names) in
  {| sz := sz x; coords := filter keep (coords x); vars := filter keep (vars x) |}.
Definition merge_field (lat : string) (sufs : list string) (x : xds) (base : string) : res xds :=
  match sufs with
  | [] => Raise UnboundLocalError
  | a :: r =>
      do v <- getv x (base ++ a)%string;
      match shape x v with
      | [] => Raise IndexError
      | _ =>
          do (n, w) <- concat_all x (last (shape x v) 0) v (removelast (shape x v)) base r;
          (* the new array must fit the dimension [lat] *)
          if Nat.eqb n (sz x lat) then
            let x1 := setv x base {| vdims := removelast (vdims v) ++ [lat]; vat := vat w |} in
            Ok (drop_vars (map (fun a => (base ++ a)%string) sufs) x1)
          else Raise ValueError
      end
  end.
Fixpoint merge_fields (lat : string) (sufs bases : list string) (x : xds) : res xds :=
  match bases with
  | [] => Ok x
  | b :: r => do x' <- merge_field lat sufs x b; merge_fields lat sufs r x'
  end.
(** [assign_coords({lat: (lat, np.arange(n))})]: ValueError if [lat] is in use with another size. *)
Definition assign_arange (lat : string) (n : nat) (x : xds) : res xds :=
  if has_dim (drop_vars [lat] x) lat && negb (Nat.eqb (sz x lat) n) then Raise ValueError
  else Ok {| sz := fun d => if String.eqb d lat then n else sz x d;
             coords := put (coords x) lat {| vdims := [lat]; vat := fun ix => XF (INR (nth 0 ix 0)) |};
             vars := vars x |}.

(** 334-398. *)
Definition remove_appended_str (all_in_lat : bool) (dims : list string) (m : mobj) : res mobj :=
  if all_in_lat then
    let sufs := appended (lat_dim m) dims in
    let n := list_sum (map (fun a => sz (mds m) (lat_dim m ++ a)%string) sufs) in
    if Nat.eqb n 0 then Ok m
    else
      let names := map fst (vars (mds m)) in
      do x <- assign_arange (lat_dim m) n (mds m);
      do x' <- merge_fields (lat_dim m) sufs (bases sufs names) x;
      Ok (with_ds m x')
  else
    do x <- strip_coord dims (mds m) (lat_dim m);
    do x' <- strip_coord dims x (lon_dim m);
    Ok (with_ds m x').
