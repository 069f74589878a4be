(** The same appended string twice; witnesses. *)
From Verif Require Import App_Spec App_Names App_Strip App_Merge Xds_Proofs Xds_Stack Xds_Round Xds_Fields Load_Facts.
Local Open Scope string_scope.
Local Open Scope list_scope.

Lemma occurs_head a p : a <> "" -> exists t, head_at a (p ++ a) = Some t.
Proof.
  intro N. destruct (head_at a (p ++ a)) as [t|] eqn:E; [eauto|]. exfalso. apply (head_none a _ N E). exists p, "".
  rewrite sapp_nil. reflexivity.
Qed.
Lemma newname_not c a dims names k : a <> "" -> In (c ++ a)%string dims ->
  newname (add_stripped a (add_stripped a [] dims) names) k <> (c ++ a)%string.
Proof.
  intros NA I E. unfold newname in E. rewrite !add_assoc in E. cbn [assoc] in E.
  assert (K : k = (c ++ a)%string -> False).
  { intros ->. destruct (occurs_head a c NA) as (t & T). rewrite T in E. apply memb_in in I. rewrite I in E.
    assert (t = (c ++ a)%string) as -> by (destruct (memb (c ++ a)%string names); exact E).
    destruct (head_some a _ _ NA T) as (_ & M). specialize (M c ""). rewrite sapp_nil, slen_app in M. specialize (M eq_refl).
    destruct a; [tauto|simpl in M; lia]. }
  assert (H : forall b, head_at a k = Some b -> b = (c ++ a)%string -> False).
  { intros b Hb ->. destruct (head_some a k _ NA Hb) as ((q & Q) & M). specialize (M c (a ++ q)%string).
    rewrite Q in M. rewrite slen_app in M. rewrite sapp_assoc in M. specialize (M eq_refl).
    destruct a; [tauto|simpl in M; lia]. }
  destruct (memb k names); [destruct (head_at a k) eqn:Hk; [eapply H; [reflexivity|exact E]|]|].
  - destruct (memb k dims); apply K; exact E.
  - destruct (memb k dims); [|apply K; exact E]. destruct (head_at a k) eqn:Hk; [eapply H; [reflexivity|exact E]|apply K; exact E].
Qed.
Theorem same_string m dims a : NoDup dims -> a <> "" ->
  In (lat_dim m ++ a)%string dims -> In (lon_dim m ++ a)%string dims ->
  (forall d, In d dims -> String.prefix (lat_dim m) d = true -> d = (lat_dim m ++ a)%string) ->
  (forall d, In d dims -> String.prefix (lon_dim m) d = true -> d = (lon_dim m ++ a)%string) ->
  remove_appended_str false dims m = Raise ValueError.
Proof.
  intros ND NA IA IO LA LO. unfold remove_appended_str, strip_coord at 1.
  rewrite (one_match dims (lat_dim m) a ND IA LA), slen_app.
  assert (L : forall p, Nat.ltb (String.length p) (String.length p + String.length a) = true).
  { intro p. apply Nat.ltb_lt. destruct a; [tauto|simpl; lia]. }
  rewrite L, drop_app. set (l := add_stripped a (add_stripped a [] dims) (map fst (vars (mds m)))).
  unfold rename_all at 1. destruct (_ && _)%bool; [|reflexivity]. cbn [bind].
  match goal with |- context [strip_coord dims ?y _] => change y with (relabel (newname l) (mds m)) end.
  set (x := relabel (newname l) (mds m)).
  unfold strip_coord. rewrite (one_match dims (lon_dim m) a ND IO LO), slen_app, L, drop_app.
  set (l2 := add_stripped a (add_stripped a [] dims) (map fst (vars x))).
  unfold rename_all.
  replace (forallb (fun p => memb (fst p) (map fst (all_vars x)) || has_dim x (fst p)) l2) with false; [reflexivity|]. symmetry.
  apply Bool.not_true_is_false. intro F. rewrite forallb_forall in F.
  assert (AS : exists t, In ((lat_dim m ++ a)%string, t) l2).
  { destruct (occurs_head a (lat_dim m) NA) as (t & T). exists t. apply assoc_mem. unfold l2. rewrite !add_assoc, T.
    apply memb_in in IA. rewrite IA. destruct (memb (lat_dim m ++ a)%string (map fst (vars x))); reflexivity. }
  destruct AS as (t & T). specialize (F _ T). cbn [fst] in F. apply Bool.orb_prop in F as [F|F].
  - apply memb_in in F. unfold x in F. rewrite all_vars_relabel, map_map in F. cbn [fst] in F. apply in_map_iff in F as (p & E & _).
    exact (newname_not (lat_dim m) a dims _ _ NA IA E).
  - apply has_dim_in in F. unfold x in F. apply dims_relabel in F as (c & _ & E). symmetry in E.
    exact (newname_not (lat_dim m) a dims _ _ NA IA E).
Qed.

(** A sub-domain without one of the fields. *)
Lemma concat_missing x n acc lead base sufs s : In s sufs -> assoc (all_vars x) (base ++ s)%string = None ->
  forall r, concat_all x n acc lead base sufs <> Ok r.
Proof.
  intros I A. revert n acc. induction sufs as [|a r IH]; intros n acc res E; [destruct I|]. cbn [concat_all] in E.
  destruct I as [->|I]; [unfold getv in E; rewrite A in E; discriminate|].
  destruct (getv x (base ++ a)%string) as [v|]; [|discriminate]. cbn [bind] in E.
  destruct (list_eq_dec Nat.eq_dec (removelast (shape x v)) lead); [|discriminate].
  destruct (shape x v); [discriminate|]. exact (IH I _ _ _ E).
Qed.
Lemma merge_field_missing lat sufs x b s : In s sufs -> assoc (all_vars x) (b ++ s)%string = None -> forall x', merge_field lat sufs x b <> Ok x'.
Proof.
  intros I A x' E. destruct sufs as [|a r]; [destruct I|]. cbn [merge_field] in E.
  destruct (getv x (b ++ a)%string) as [v|] eqn:G; [|discriminate]. cbn [bind] in E.
  destruct (shape x v); [discriminate|].
  destruct I as [->|I]; [unfold getv in G; rewrite A in G; discriminate|].
  destruct (concat_all _ _ _ _ _ _) as [[k w]|] eqn:C; [|discriminate].
  exact (concat_missing _ _ _ _ _ _ s I A _ C).
Qed.

Lemma assoc_none_filter {A} (f : string * A -> bool) l k : assoc l k = None -> assoc (filter f l) k = None.
Proof.
  induction l as [|[c w] l IH]; [reflexivity|]. cbn [assoc filter]. destruct (String.eqb_spec c k); [discriminate|]. intro H.
  destruct (f (c, w)); [|auto]. cbn [assoc]. destruct (String.eqb_spec c k); [tauto|auto].
Qed.
Lemma none_parts x k : assoc (all_vars x) k = None <-> assoc (coords x) k = None /\ assoc (vars x) k = None.
Proof.
  unfold all_vars. rewrite assoc_app. destruct (assoc (coords x) k); split; try tauto; try discriminate.
Qed.
Lemma merge_field_none lat sufs x b x' k : merge_field lat sufs x b = Ok x' -> k <> b ->
  assoc (all_vars x) k = None -> assoc (all_vars x') k = None.
Proof.
  intros E N A. destruct sufs as [|a r]; [discriminate|]. cbn [merge_field] in E.
  destruct (getv x (b ++ a)%string) as [v|] eqn:G; [|discriminate]. cbn [bind] in E.
  destruct (shape x v); [discriminate|].
  destruct (concat_all _ _ _ _ _ _) as [[nn w]|] eqn:C; [|discriminate].
  cbn [bind] in E. destruct (Nat.eqb nn (sz x lat)); [|discriminate]. injection E as <-.
  apply none_parts in A as [A B]. apply none_parts. unfold drop_vars, setv. cbn [coords vars].
  split; apply assoc_none_filter; [exact A|]. rewrite put_other by exact N. exact B.
Qed.
Lemma merge_fields_missing lat sufs b s : In s sufs -> forall todo x, In b todo -> ~ In (b ++ s)%string todo ->
  assoc (all_vars x) (b ++ s)%string = None -> exists e, merge_fields lat sufs todo x = Raise e.
Proof.
  intros I. induction todo as [|c r IH]; intros x B N A; [destruct B|]. cbn [merge_fields].
  destruct (merge_field lat sufs x c) as [x'|e] eqn:E; cbn [bind]; [|eauto].
  destruct (string_dec c b) as [->|D]; [exfalso; exact (merge_field_missing _ _ _ _ _ I A _ E)|].
  destruct B as [B|B]; [tauto|]. apply IH; [exact B|intro J; apply N; right; exact J|].
  apply (merge_field_none _ _ _ _ _ _ E); [|exact A]. intro Q. apply N. left. symmetry. exact Q.
Qed.
Theorem missing_fails m dims sufs n s0 b s :
  filter (String.prefix (lat_dim m ++ "_")) dims = map (fun s => (lat_dim m ++ s)%string) sufs -> ~ In "" sufs ->
  0 < starts (mds m) (lat_dim m) sufs (length sufs) ->
  In n (map fst (vars (mds m))) -> In s0 sufs -> occurs_in s0 n -> cut_at s0 n b ->
  In s sufs -> ~ In (b ++ s)%string (map fst (all_vars (mds m))) -> (b ++ s)%string <> lat_dim m ->
  (forall n' s', In n' (map fst (vars (mds m))) -> In s' sufs -> ~ cut_at s' n' (b ++ s)) ->
  exists e, remove_appended_str true dims m = Raise e.
Proof.
  intros FD NS SZ In0 Is0 O C Is A NL NB. unfold remove_appended_str.
  assert (AP : appended (lat_dim m) dims = sufs).
  { unfold appended. rewrite FD, map_map. rewrite <- (map_id sufs) at 2. apply map_ext. intro t. apply drop_app. }
  rewrite AP. unfold starts in SZ. rewrite firstn_all in SZ.
  destruct (Nat.eqb_spec (list_sum (map (fun a => sz (mds m) (lat_dim m ++ a)%string) sufs)) 0) as [E|_]; [lia|].
  unfold assign_arange. destruct (_ && _)%bool; cbn [bind]; [eauto|].
  match goal with |- context [merge_fields _ _ _ ?y] => set (x := y) end.
  destruct (merge_fields_missing (lat_dim m) sufs b s Is (bases sufs (map fst (vars (mds m)))) x) as (e & E).
  - apply bases_in. exists n, s0. split; [exact In0|]. split; [exact Is0|].
    assert (N0 : s0 <> "") by (intros ->; tauto).
    apply cut_iff in C. unfold cutf in C. destruct (string_dec s0 ""); [tauto|].
    destruct (head_at s0 n) as [t|] eqn:H; [congruence|]. exfalso. apply (head_none s0 n N0 H O).
  - intro J. apply bases_in in J as (n' & s' & J1 & J2 & J3). apply (NB n' s' J1 J2).
    assert (N0 : s' <> "") by (intros ->; tauto). right. split; [exact N0|]. apply head_some; assumption.
  - apply none_parts. unfold all_vars in A. rewrite map_app in A. cbn [coords vars x]. split.
    + rewrite put_other by exact NL. apply assoc_none. intro J. apply A. apply in_or_app. auto.
    + apply assoc_none. intro J. apply A. apply in_or_app. auto.
  - rewrite E. cbn [bind]. eauto.
Qed.

(** Witnesses. *)
Definition ap_var (D : list string) (o : R) : var := {| vdims := D; vat := fun ix => XF (o + INR (nth 0 ix O) + 10 * INR (nth 1 ix O))%R |}.
Definition ap_m (x : xds) (lat lon : string) : mobj :=
  {| mds := x; time_dim := "time"; height_dim := "lev"; lat_dim := lat; lon_dim := lon; stacked_time_dim := None |}.
Definition ap_x : xds :=
  {| sz := fun d => if String.eqb d "lat_72n_to_75n" then 2 else 3;
     coords := [("lat_72n_to_75n", ap_var ["lat_72n_to_75n"] 72)];
     vars := [("T_200e_to_210e_72n_to_75n", ap_var ["lat_72n_to_75n"; "lon_200e_to_210e"] 250); ("P0", ap_var [] 1000)] |}.
Definition ap_dims := ["lat_72n_to_75n"; "lon_200e_to_210e"].

Fixpoint splits (s : string) : list (string * string) :=
  ("", s) :: match s with "" => [] | String c r => map (fun p => (String c (fst p), snd p)) (splits r) end.
Lemma splits_ok s p q : s = (p ++ q)%string -> In (p, q) (splits s).
Proof.
  revert p. induction s as [|c s IH]; intros [|d p] E; simpl in *; try discriminate.
  - left. rewrite E. reflexivity.
  - left. rewrite <- E. reflexivity.
  - injection E as <- E. right. apply in_map_iff. exists (p, q). split; [reflexivity|]. apply IH. exact E.
Qed.
Lemma occurs_test a s : head_at a s = None -> a <> "" -> ~ occurs_in a s.
Proof. intros H N. apply head_none; assumption. Qed.
Lemma cut_test a s t : cutf a s = t -> cut_at a s t.
Proof. intros <-. apply cutf_ok. Qed.

Lemma ap_case : suffixed (ap_m ap_x "lat" "lon") ap_dims "_72n_to_75n" "_200e_to_210e".
Proof.
  constructor.
  - split; [repeat constructor; simpl; intuition discriminate|]. intro d. reflexivity.
  - split; [left; reflexivity|apply cut_test; reflexivity].
  - split; [right; left; reflexivity|apply cut_test; reflexivity].
  - intros d [<-|[<-|[]]]; vm_compute; [reflexivity|discriminate].
  - intros d [<-|[<-|[]]]; vm_compute; [discriminate|reflexivity].
  - right. intros d [<-|[<-|[]]] N; [elim N; reflexivity|apply occurs_test; [reflexivity|discriminate]].
  - right. intros d [<-|[<-|[]]] N; [apply occurs_test; [reflexivity|discriminate]|elim N; reflexivity].
  - discriminate.
  - repeat constructor; simpl; intuition discriminate.
  - intros k [<-|[]]. left. left. reflexivity.
  - intros k k' t I I' C C'. apply clean_iff in C. apply clean_iff in C'. subst t.
    simpl in I, I'. destruct I as [<-|[<-|[<-|[]]]], I' as [<-|[<-|[<-|[]]]]; try reflexivity; vm_compute in C'; discriminate.
Qed.
Lemma ap_clean : cleaned "_72n_to_75n" "_200e_to_210e" "T_200e_to_210e_72n_to_75n" "T" /\
  cleaned "_72n_to_75n" "_200e_to_210e" "lat_72n_to_75n" "lat" /\ cleaned "_72n_to_75n" "_200e_to_210e" "lon_200e_to_210e" "lon".
Proof. repeat split; apply clean_iff; reflexivity. Qed.

(** One string for both. *)
Definition tw_x : xds :=
  {| sz := fun _ => 2; coords := [];
     vars := [("T_sgp", ap_var ["lat_sgp"; "lon_sgp"] 250)] |}.
Lemma tw_case : let m := ap_m tw_x "lat" "lon" in let dims := ["lat_sgp"; "lon_sgp"] in
  NoDup dims /\ (forall d, In d dims <-> In d (all_dims (mds m))) /\ "_sgp" <> "" /\
  In (lat_dim m ++ "_sgp")%string dims /\ In (lon_dim m ++ "_sgp")%string dims /\
  (forall d, In d dims -> String.prefix (lat_dim m) d = true -> d = (lat_dim m ++ "_sgp")%string) /\
  (forall d, In d dims -> String.prefix (lon_dim m) d = true -> d = (lon_dim m ++ "_sgp")%string).
Proof.
  repeat split; try (intros []; fail); try discriminate; try (simpl; tauto).
  - repeat constructor; simpl; intuition discriminate.
  - intros d [<-|[<-|[]]]; vm_compute; [reflexivity|discriminate].
  - intros d [<-|[<-|[]]]; vm_compute; [discriminate|reflexivity].
Qed.

(** Two sub-domains of two and three columns. *)
Definition sd_x : xds :=
  {| sz := fun d => if String.eqb d "ncol_nsa" then 2 else if String.eqb d "ncol_sgp" then 3 else 4;
     coords := [("lev", ap_var ["lev"] 0)];
     vars := [("T_nsa", ap_var ["lev"; "ncol_nsa"] 250); ("T_sgp", ap_var ["lev"; "ncol_sgp"] 290);
              ("PS_nsa", ap_var ["ncol_nsa"] 1000); ("PS_sgp", ap_var ["ncol_sgp"] 900); ("P0", ap_var [] 1)] |}.
Definition sd_dims := ["lev"; "ncol_nsa"; "ncol_sgp"].
Definition sd_lead (b : string) : list string := if String.eqb b "T" then ["lev"] else [].
Lemma sd_case : subdomains (ap_m sd_x "ncol" "ncol") sd_dims ["_nsa"; "_sgp"] ["T"; "PS"] sd_lead.
Proof.
  constructor.
  - reflexivity.
  - split; [repeat constructor; simpl; intuition discriminate|simpl; intuition discriminate].
  - vm_compute. lia.
  - split; simpl; intuition discriminate.
  - repeat constructor; simpl; intuition discriminate.
  - intros b s [<-|[<-|[]]] [<-|[<-|[]]]; eexists; (split; [reflexivity|]); (split; [reflexivity|]); intros s' [<-|[<-|[]]]; simpl; intuition discriminate.
  - intros b [<-|[<-|[]]]; (split; [simpl; intuition discriminate|]); (split; [discriminate|]); exists "_nsa";
      (split; [left; reflexivity|apply cut_test; reflexivity]).
  - intros n s b I [<-|[<-|[]]] O C; simpl in I; apply cut_iff in C; subst b;
      destruct I as [<-|[<-|[<-|[<-|[<-|[]]]]]]; vm_compute; auto; exfalso; revert O; apply occurs_test; (reflexivity || discriminate).
Qed.
Lemma sd_order : filter (fun d => memb d (all_dims sd_x)) sd_dims = sd_dims /\ starts sd_x "ncol" ["_nsa"; "_sgp"] 1 = 2 /\
  starts sd_x "ncol" ["_nsa"; "_sgp"] 2 = 5.
Proof. repeat split. Qed.

(** A field of one sub-domain only. *)
Definition sm_x : xds := {| sz := sz sd_x; coords := coords sd_x; vars := vars sd_x ++ [("Q_nsa", ap_var ["ncol_nsa"] 1)] |}.
Lemma sm_case : remove_appended_str true sd_dims (ap_m sm_x "ncol" "ncol") = Raise KeyError.
Proof. vm_compute. reflexivity. Qed.
Lemma sm_hyp : let m := ap_m sm_x "ncol" "ncol" in let sufs := ["_nsa"; "_sgp"] in
  filter (String.prefix (lat_dim m ++ "_")) sd_dims = map (fun s => (lat_dim m ++ s)%string) sufs /\ ~ In "" sufs /\
  0 < starts (mds m) (lat_dim m) sufs (length sufs) /\
  In "Q_nsa" (map fst (vars (mds m))) /\ In "_nsa" sufs /\ occurs_in "_nsa" "Q_nsa" /\ cut_at "_nsa" "Q_nsa" "Q" /\
  In "_sgp" sufs /\ ~ In ("Q" ++ "_sgp")%string (map fst (all_vars (mds m))) /\ ("Q" ++ "_sgp")%string <> lat_dim m /\
  (forall n' s', In n' (map fst (vars (mds m))) -> In s' sufs -> ~ cut_at s' n' ("Q" ++ "_sgp")).
Proof.
  split; [reflexivity|]. split; [simpl; intuition discriminate|]. split; [vm_compute; lia|]. split; [simpl; tauto|].
  split; [simpl; tauto|]. split; [exists "Q", ""; reflexivity|]. split; [apply cut_test; reflexivity|].
  split; [simpl; tauto|]. split; [simpl; intuition discriminate|]. split; [discriminate|].
  intros n' s' I [<-|[<-|[]]] C; apply cut_iff in C; simpl in I;
    destruct I as [<-|[<-|[<-|[<-|[<-|[<-|[]]]]]]]; vm_compute in C; discriminate.
Qed.
