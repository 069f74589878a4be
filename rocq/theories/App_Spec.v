(** Vocabulary for files with appended strings. *)
From Verif Require Export App_Model Xds_Spec.
Local Open Scope string_scope.
Local Open Scope list_scope.

(** [t] is [s] up to the first occurrence of [a], all of [s] if there is none;
    nothing is cut off for the empty string. *)
Definition cut_at (a s t : string) : Prop :=
  ((a = "" \/ ~ occurs_in a s) /\ t = s) \/
  (a <> "" /\ (exists q, s = (t ++ a ++ q)%string) /\
   forall p q, s = (p ++ a ++ q)%string -> String.length t <= String.length p).
(** Both strings cut off. *)
Definition cleaned (a b s t : string) : Prop := exists u, cut_at a s u /\ cut_at b u t.

(** A file whose latitude dimension carries [a] and whose longitude dimension
    carries [b]; no other dimension starts like them or contains [a] or [b]. *)
Record suffixed (m : mobj) (dims : list string) (a b : string) : Prop := {
  su_dims : NoDup dims /\ forall d, In d dims <-> In d (all_dims (mds m));
  su_lat : In (lat_dim m ++ a)%string dims /\ cut_at a (lat_dim m ++ a) (lat_dim m);
  su_lon : In (lon_dim m ++ b)%string dims /\ cut_at b (lon_dim m ++ b) (lon_dim m);
  su_lat_only : forall d, In d dims -> String.prefix (lat_dim m) d = true -> d = (lat_dim m ++ a)%string;
  su_lon_only : forall d, In d dims -> String.prefix (lon_dim m) d = true -> d = (lon_dim m ++ b)%string;
  su_a : a = "" \/ forall d, In d dims -> d <> (lat_dim m ++ a)%string -> ~ occurs_in a d;
  su_b : b = "" \/ forall d, In d dims -> d <> (lon_dim m ++ b)%string -> ~ occurs_in b d;
  su_diff : (lat_dim m ++ a)%string <> (lon_dim m ++ b)%string;
  su_keys : NoDup (map fst (all_vars (mds m)));
  (* coordinates along several dimensions carry neither *)
  su_coords : forall k, In k (map fst (coords (mds m))) -> In k dims \/
    (a = "" \/ ~ occurs_in a k) /\ (b = "" \/ ~ occurs_in b k);
  (* no two names become equal *)
  su_clash : forall k k' t, In k (map fst (all_vars (mds m))) -> In k' (map fst (all_vars (mds m))) ->
    cleaned a b k t -> cleaned a b k' t -> k = k'
}.
(** The variable under its clean name: same values, dimensions renamed. *)
Definition same_values (a b : string) (v v' : var) : Prop :=
  Forall2 (cleaned a b) (vdims v) (vdims v') /\ forall ix, vat v' ix = vat v ix.

(** Sub-domains: dimension [lat ++ s] for each suffix [s], in this order. *)
Definition starts (x : xds) (lat : string) (sufs : list string) (j : nat) : nat :=
  list_sum (map (fun s => sz x (lat ++ s)%string) (firstn j sufs)).
(** A file of sub-domains: its dimensions starting with [lat ++ "_"] are, in the
    order shown, [lat ++ s] for [s] in [sufs]; each field [b] of [bs] is there
    once per sub-domain, as [b ++ s] over [lead b] and [lat ++ s]. *)
Definition with_index (ix : string -> nat) (d : string) (i : nat) : string -> nat :=
  fun c => if string_dec c d then i else ix c.
Record subdomains (m : mobj) (dims sufs bs : list string) (lead : string -> list string) : Prop := {
  sb_dims : filter (String.prefix (lat_dim m ++ "_")) dims = map (fun s => (lat_dim m ++ s)%string) sufs;
  sb_sufs : NoDup sufs /\ ~ In "" sufs;
  sb_size : 0 < starts (mds m) (lat_dim m) sufs (length sufs);
  sb_new : ~ In (lat_dim m) (all_dims (mds m)) /\ ~ In (lat_dim m) (map fst (all_vars (mds m)));
  sb_keys : NoDup (map fst (all_vars (mds m)));
  sb_fields : forall b s, In b bs -> In s sufs ->
     exists v, field (mds m) (b ++ s) v /\ vdims v = lead b ++ [(lat_dim m ++ s)%string] /\
       forall s', In s' sufs -> ~ In (lat_dim m ++ s')%string (lead b);
  sb_found : forall b, In b bs -> ~ In b (map fst (all_vars (mds m))) /\ b <> lat_dim m /\
     exists s, In s sufs /\ cut_at s (b ++ s) b;
  sb_only : forall n s b, In n (map fst (vars (mds m))) -> In s sufs -> occurs_in s n -> cut_at s n b -> In b bs
}.
