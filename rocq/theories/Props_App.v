(** Properties C107-C108: files with strings appended to their names. *)
From Verif Require Import App_Spec App_Strip App_Merge App_More.
Local Open Scope string_scope.
Local Open Scope list_scope.

(** C107: the appended strings are taken off dimensions, coordinates and
    fields.  Claimed for any strings; with one string for both dimensions it
    always fails. *)
Theorem C107_same_string_refuted : forall m dims a, NoDup dims -> a <> "" ->
  In (lat_dim m ++ a)%string dims -> In (lon_dim m ++ a)%string dims ->
  (forall d, In d dims -> String.prefix (lat_dim m) d = true -> d = (lat_dim m ++ a)%string) ->
  (forall d, In d dims -> String.prefix (lon_dim m) d = true -> d = (lon_dim m ++ a)%string) ->
  remove_appended_str false dims m = Raise ValueError.
Proof. exact same_string. Qed.
Print Assumptions C107_same_string_refuted.
Example C107_same_string_case : let m := ap_m tw_x "lat" "lon" in let dims := ["lat_sgp"; "lon_sgp"] in
  NoDup dims /\ (forall d, In d dims <-> In d (all_dims (mds m))) /\ "_sgp" <> "" /\
  In (lat_dim m ++ "_sgp")%string dims /\ In (lon_dim m ++ "_sgp")%string dims /\
  (forall d, In d dims -> String.prefix (lat_dim m) d = true -> d = (lat_dim m ++ "_sgp")%string) /\
  (forall d, In d dims -> String.prefix (lon_dim m) d = true -> d = (lon_dim m ++ "_sgp")%string).
Proof. exact tw_case. Qed.

Theorem C107_names_partial : forall m dims a b, suffixed m dims a b -> exists m', remove_appended_str false dims m = Ok m' /\
  time_dim m' = time_dim m /\ height_dim m' = height_dim m /\ lat_dim m' = lat_dim m /\ lon_dim m' = lon_dim m /\
  (forall d, In d (all_dims (mds m')) <-> exists e, In e dims /\ cleaned a b e d) /\
  (forall e d, In e dims -> cleaned a b e d -> sz (mds m') d = sz (mds m) e) /\
  (forall k v t, field (mds m) k v -> cleaned a b k t -> exists v', field (mds m') t v' /\ same_values a b v v') /\
  (forall k v t, assoc (coords (mds m)) k = Some v -> cleaned a b k t ->
     exists v', assoc (coords (mds m')) t = Some v' /\ same_values a b v v') /\
  (forall t, In t (map fst (vars (mds m'))) <-> exists k, In k (map fst (vars (mds m))) /\ cleaned a b k t).
Proof. exact strip_ok. Qed.
Print Assumptions C107_names_partial.
Example C107_case : suffixed (ap_m ap_x "lat" "lon") ap_dims "_72n_to_75n" "_200e_to_210e" /\
  cleaned "_72n_to_75n" "_200e_to_210e" "T_200e_to_210e_72n_to_75n" "T".
Proof. exact (conj ap_case (proj1 ap_clean)). Qed.

(** C108: sub-domains side by side along the clean dimension: each value of
    each sub-domain at its place, and nothing else changed. *)
Theorem C108_subdomains : forall m dims sufs bs lead, subdomains m dims sufs bs lead -> exists m',
  remove_appended_str true dims m = Ok m' /\
  (lat_dim m' = lat_dim m /\ lon_dim m' = lon_dim m /\ time_dim m' = time_dim m /\ height_dim m' = height_dim m) /\
  sz (mds m') (lat_dim m) = starts (mds m) (lat_dim m) sufs (length sufs) /\
  (forall d, d <> lat_dim m -> sz (mds m') d = sz (mds m) d) /\
  (exists c, assoc (coords (mds m')) (lat_dim m) = Some c /\ vdims c = [lat_dim m] /\
     forall i, vat c [i] = XF (INR i)) /\
  (forall k, k <> lat_dim m -> assoc (coords (mds m')) k = assoc (coords (mds m)) k) /\
  (forall b, In b bs -> exists w, field (mds m') b w /\ vdims w = lead b ++ [lat_dim m] /\
     forall j s i v ix, nth_error sufs j = Some s -> field (mds m) (b ++ s) v -> i < sz (mds m) (lat_dim m ++ s)%string ->
       at_ w (with_index ix (lat_dim m) (starts (mds m) (lat_dim m) sufs j + i)) =
       at_ v (with_index ix (lat_dim m ++ s)%string i)) /\
  (forall b s, In b bs -> In s sufs -> assoc (vars (mds m')) (b ++ s)%string = None) /\
  (forall k, ~ In k bs -> (forall b s, In b bs -> In s sufs -> k <> (b ++ s)%string) ->
     assoc (vars (mds m')) k = assoc (vars (mds m)) k).
Proof. exact merge_ok. Qed.
Print Assumptions C108_subdomains.
Example C108_case : subdomains (ap_m sd_x "ncol" "ncol") sd_dims ["_nsa"; "_sgp"] ["T"; "PS"] sd_lead /\
  starts sd_x "ncol" ["_nsa"; "_sgp"] 1 = 2 /\ starts sd_x "ncol" ["_nsa"; "_sgp"] 2 = 5.
Proof. exact (conj sd_case (proj2 sd_order)). Qed.

(** Without such dimensions the file stays as it is. *)
Theorem C108_nothing_appended : forall m dims, (forall d, In d dims -> String.prefix (lat_dim m ++ "_") d = false) ->
  remove_appended_str true dims m = Ok m.
Proof. exact merge_none. Qed.
Print Assumptions C108_nothing_appended.
Example C108_nothing_case : forall d, In d ap_dims -> String.prefix (lat_dim (ap_m ap_x "ncol" "ncol") ++ "_") d = false.
Proof. intros d [<-|[<-|[]]]; reflexivity. Qed.

(** A field that one sub-domain has and another has not: an error, never a
    field with the columns of only some sub-domains. *)
Theorem C108_field_missing : forall m dims sufs n s0 b s,
  filter (String.prefix (lat_dim m ++ "_")) dims = map (fun s => (lat_dim m ++ s)%string) sufs -> ~ In "" sufs ->
  0 < starts (mds m) (lat_dim m) sufs (length sufs) ->
  In n (map fst (vars (mds m))) -> In s0 sufs -> occurs_in s0 n -> cut_at s0 n b ->
  In s sufs -> ~ In (b ++ s)%string (map fst (all_vars (mds m))) -> (b ++ s)%string <> lat_dim m ->
  (forall n' s', In n' (map fst (vars (mds m))) -> In s' sufs -> ~ cut_at s' n' (b ++ s)) ->
  exists e, remove_appended_str true dims m = Raise e.
Proof. exact missing_fails. Qed.
Print Assumptions C108_field_missing.
Example C108_missing_case : let m := ap_m sm_x "ncol" "ncol" in let sufs := ["_nsa"; "_sgp"] in
  filter (String.prefix (lat_dim m ++ "_")) sd_dims = map (fun s => (lat_dim m ++ s)%string) sufs /\ ~ In "" sufs /\
  0 < starts (mds m) (lat_dim m) sufs (length sufs) /\
  In "Q_nsa" (map fst (vars (mds m))) /\ In "_nsa" sufs /\ occurs_in "_nsa" "Q_nsa" /\ cut_at "_nsa" "Q_nsa" "Q" /\
  In "_sgp" sufs /\ ~ In ("Q" ++ "_sgp")%string (map fst (all_vars (mds m))) /\ ("Q" ++ "_sgp")%string <> lat_dim m /\
  (forall n' s', In n' (map fst (vars (mds m))) -> In s' sufs -> ~ cut_at s' n' ("Q" ++ "_sgp")).
Proof. exact sm_hyp. Qed.
