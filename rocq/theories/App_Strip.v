(** Removing the strings appended to latitude and longitude. *)
From Verif Require Import App_Spec Xds_Proofs Xds_Stack Xds_Round Xds_Fields Load_Facts App_Names Np_Facts.
Local Open Scope string_scope.
Local Open Scope list_scope.

Lemma add_assoc a names : forall l k, assoc (add_stripped a l names) k =
  if memb k names then match head_at a k with Some b => Some b | None => assoc l k end else assoc l k.
Proof.
  induction names as [|n names IH]; intros l k; [reflexivity|]. unfold add_stripped in *. cbn [fold_left]. rewrite IH.
  cbn [memb existsb]. destruct (String.eqb_spec k n) as [->|N]; cbn [orb].
  - destruct (existsb (String.eqb n) names) eqn:E; unfold memb; rewrite E; destruct (head_at a n) as [b|]; try reflexivity.
    apply put_same.
  - unfold memb. destruct (head_at a n) as [b|]; [rewrite put_other by congruence|]; reflexivity.
Qed.
Lemma distinct_ok l : NoDup l -> distinct l = true.
Proof.
  induction 1 as [|a l N _ IH]; [reflexivity|]. cbn [distinct]. apply memb_out in N. rewrite N, IH. reflexivity.
Qed.
Lemma nodup_inj {A B} (f : A -> B) l : NoDup l -> (forall x y, In x l -> In y l -> f x = f y -> x = y) -> NoDup (map f l).
Proof.
  induction 1 as [|a l N _ IH]; intro H; [constructor|]. cbn [map]. constructor.
  - intro I. apply in_map_iff in I as (b & E & I). assert (b = a) by (apply H; [right; exact I|left; reflexivity|exact E]). subst. tauto.
  - apply IH. intros x y X Y. apply H; right; assumption.
Qed.

Definition relabel (f : string -> string) (x : xds) : xds :=
  let g (p : string * var) := (f (fst p), {| vdims := map f (vdims (snd p)); vat := vat (snd p) |}) in
  {| sz := fun d => match find (fun c => String.eqb (f c) d) (all_dims x) with Some c => sz x c | None => sz x d end;
     coords := map g (coords x); vars := map g (vars x) |}.
Definition moved (f : string -> string) (v : var) : var := {| vdims := map f (vdims v); vat := vat v |}.

Lemma key_assoc (f : string -> string) (l : list (string * var)) k v :
  (forall k', In k' (map fst l) -> f k' = f k -> k' = k) -> assoc l k = Some v ->
  assoc (map (fun p => (f (fst p), moved f (snd p))) l) (f k) = Some (moved f v).
Proof.
  intros H A. induction l as [|[n w] l IH]; [discriminate|]. cbn [map assoc fst snd] in *.
  destruct (String.eqb_spec n k) as [->|N].
  - injection A as ->. rewrite String.eqb_refl. reflexivity.
  - destruct (String.eqb_spec (f n) (f k)) as [E|_].
    + exfalso. apply N. apply H; [left; reflexivity|exact E].
    + apply IH; [|exact A]. intros k' I. apply H. right. exact I.
Qed.
Lemma all_vars_relabel f x : all_vars (relabel f x) = map (fun p => (f (fst p), moved f (snd p))) (all_vars x).
Proof. unfold all_vars. rewrite map_app. reflexivity. Qed.
Lemma dims_relabel f x d : In d (all_dims (relabel f x)) <-> exists c, In c (all_dims x) /\ d = f c.
Proof.
  split.
  - intro I. apply in_dims in I as (k & v & I & D). rewrite all_vars_relabel in I. apply in_map_iff in I as ([k0 v0] & E & I).
    injection E as <- <-. cbn [moved vdims snd] in D. apply in_map_iff in D as (c & <- & D). exists c. split; [|reflexivity].
    apply in_dims. eauto.
  - intros (c & I & ->). apply in_dims in I as (k & v & I & D). apply in_dims. exists (f k), (moved f v). split.
    + rewrite all_vars_relabel. apply in_map_iff. exists (k, v). auto.
    + cbn [moved vdims]. apply in_map. exact D.
Qed.
Lemma sz_relabel f x c : (forall d, In d (all_dims x) -> f d = f c -> d = c) -> In c (all_dims x) -> sz (relabel f x) (f c) = sz x c.
Proof.
  intros H I. cbn [relabel sz]. destruct (find (fun d => String.eqb (f d) (f c)) (all_dims x)) as [d|] eqn:E.
  - apply find_some in E as [D E]. apply String.eqb_eq in E. rewrite (H d D E). reflexivity.
  - exfalso. apply (find_none _ _ E c) in I. rewrite String.eqb_refl in I. discriminate.
Qed.

Lemma prefix_app s t : String.prefix s (s ++ t) = true.
Proof. induction s; simpl; [destruct t; reflexivity|]. destruct (Ascii.ascii_dec a a); [exact IHs|tauto]. Qed.
Lemma drop_app s t : drop_str (String.length s) (s ++ t) = t.
Proof.
  unfold drop_str. rewrite slen_app, sub_app_r. replace (String.length s + String.length t - String.length s) with (String.length t) by lia.
  apply sub_all.
Qed.
Lemma map_agree (f g : string -> string) (ls : list string) : (forall n, In n ls -> f n = g n) -> map f ls = map g ls.
Proof. intro H. apply map_ext_in. exact H. Qed.

Section Pass.
Variables (dims : list string) (x : xds) (c a : string).
Hypothesis ND : NoDup dims.
Hypothesis IN : In (c ++ a)%string dims.
Hypothesis OC : In (c ++ a)%string (all_dims x).
Hypothesis ONLY : forall d, In d dims -> String.prefix c d = true -> d = (c ++ a)%string.
Hypothesis CUT : cut_at a (c ++ a) c.
Hypothesis FREE : a = "" \/ forall d, In d dims -> d <> (c ++ a)%string -> ~ occurs_in a d.
(* names outside the table of names do not contain [a] *)
Hypothesis REST : forall n, In n (map fst (coords x)) \/ In n (all_dims x) -> In n dims \/ a = "" \/ ~ occurs_in a n.
Hypothesis KEYS : NoDup (map fst (all_vars x)).
Hypothesis INJ : forall k k', In k (map fst (all_vars x)) -> In k' (map fst (all_vars x)) -> cutf a k = cutf a k' -> k = k'.
Hypothesis INJD : forall d d', In d (all_dims x) -> In d' (all_dims x) -> cutf a d = cutf a d' -> d = d'.

Lemma one_match : filter (String.prefix c) dims = [(c ++ a)%string].
Proof.
  assert (A : In (c ++ a)%string (filter (String.prefix c) dims)) by (apply filter_In; split; [exact IN|apply prefix_app]).
  assert (B : forall d, In d (filter (String.prefix c) dims) -> d = (c ++ a)%string).
  { intros d D. apply filter_In in D as [D P]. apply ONLY; assumption. }
  pose proof (NoDup_filter (String.prefix c) ND) as N.
  destruct (filter (String.prefix c) dims) as [|d [|e l]]; [destruct A| |].
  - rewrite (B d (or_introl eq_refl)). reflexivity.
  - exfalso. inversion N as [|? ? N1 _]; subst. apply N1. left.
    rewrite (B d (or_introl eq_refl)), (B e (or_intror (or_introl eq_refl))). reflexivity.
Qed.
Let l := add_stripped a (add_stripped a [] dims) (map fst (vars x)).
Lemma names_agree n : In n (map fst (all_vars x)) \/ In n (all_dims x) -> a <> "" -> newname l n = cutf a n.
Proof.
  intros I NA. unfold newname, l. rewrite !add_assoc. cbn [assoc]. unfold cutf. destruct (string_dec a "") as [|_]; [tauto|].
  destruct (memb n (map fst (vars x))) eqn:V; [destruct (head_at a n); [reflexivity|destruct (memb n dims); reflexivity]|].
  destruct (memb n dims) eqn:D; [destruct (head_at a n); reflexivity|].
  apply memb_out in V. apply memb_out in D.
  destruct (head_at a n) as [b|] eqn:H; [exfalso|reflexivity].
  destruct (head_some a n b NA H) as ((q & Q) & _).
  assert (R : In n dims \/ a = "" \/ ~ occurs_in a n).
  { apply REST. destruct I as [I|I]; [|right; exact I]. unfold all_vars in I. rewrite map_app in I. apply in_app_iff in I as [I|I]; [auto|tauto]. }
  destruct R as [R|[R|R]]; [tauto|tauto|]. apply R. exists b, q. exact Q.
Qed.

Lemma pass_ok : exists x', strip_coord dims x c = Ok x' /\
  map fst (coords x') = map (cutf a) (map fst (coords x)) /\ map fst (vars x') = map (cutf a) (map fst (vars x)) /\
  (forall d, In d (all_dims x') <-> exists e, In e (all_dims x) /\ d = cutf a e) /\
  (forall d, In d (all_dims x) -> sz x' (cutf a d) = sz x d) /\
  (forall k v, assoc (coords x) k = Some v -> assoc (coords x') (cutf a k) = Some (moved (cutf a) v)) /\
  (forall k v, assoc (vars x) k = Some v -> assoc (vars x') (cutf a k) = Some (moved (cutf a) v)).
Proof.
  unfold strip_coord. rewrite one_match, slen_app. destruct (string_dec a "") as [E|NA].
  - assert (L : Nat.ltb (String.length c) (String.length c + String.length a) = false) by (subst a; simpl; apply Nat.ltb_ge; lia).
    rewrite L. assert (ID : forall s, cutf a s = s) by (intro s; apply cutf_not; auto).
    assert (MI : forall l0, map (cutf a) l0 = l0) by (intro l0; erewrite map_ext; [apply map_id|exact ID]).
    assert (MV : forall v, moved (cutf a) v = v) by (intros [D0 F0]; unfold moved; cbn [vdims vat]; rewrite MI; reflexivity).
    exists x. split; [reflexivity|]. split; [rewrite MI; reflexivity|]. split; [rewrite MI; reflexivity|]. split.
    { intro d. split; [intro I; exists d; rewrite ID; auto|intros (e & I & ->); rewrite ID; exact I]. }
    split; [intros d _; rewrite ID; reflexivity|]. split; intros k v A; rewrite ID, MV; exact A.
  - assert (L : Nat.ltb (String.length c) (String.length c + String.length a) = true).
    { apply Nat.ltb_lt. destruct a; [tauto|simpl; lia]. }
    rewrite L, drop_app. fold l.
    assert (AG : forall n, In n (map fst (all_vars x)) \/ In n (all_dims x) -> newname l n = cutf a n) by (intros; apply names_agree; assumption).
    assert (OKN : forallb (fun p => memb (fst p) (map fst (all_vars x)) || has_dim x (fst p)) l = true).
    { apply forallb_forall. intros [n t] I. cbn [fst].
      assert (AS : exists u, assoc l n = Some u).
      { clear - I. induction l as [|[n0 t0] l0 IH]; [destruct I|]. cbn [assoc]. destruct (String.eqb_spec n0 n); [eauto|].
        destruct I as [I|I]; [congruence|auto]. }
      destruct AS as (u & AS). unfold l in AS. rewrite !add_assoc in AS. cbn [assoc] in AS.
      destruct (memb n (map fst (vars x))) eqn:V.
      - apply memb_in in V. assert (M : memb n (map fst (all_vars x)) = true) by (apply memb_in; unfold all_vars; rewrite map_app; apply in_app_iff; auto).
        rewrite M. reflexivity.
      - destruct (memb n dims) eqn:D; [|discriminate]. destruct (head_at a n) as [b|] eqn:H; [|discriminate].
        apply memb_in in D. destruct (head_some a n b NA H) as ((q & Q) & _).
        assert (n = (c ++ a)%string) as ->.
        { destruct (string_dec n (c ++ a)) as [|N]; [assumption|exfalso]. destruct FREE as [F|F]; [tauto|].
          apply (F n D N). exists b, q. exact Q. }
        apply has_dim_in in OC. rewrite OC. apply Bool.orb_true_r. }
    assert (NDV : NoDup (map (newname l) (map fst (all_vars x)))).
    { apply nodup_inj; [exact KEYS|]. intros k k' I I' E. rewrite !AG in E by auto. apply INJ; assumption. }
    assert (NDD : NoDup (map (newname l) (all_dims x))).
    { apply nodup_inj; [apply NoDup_nodup|]. intros k k' I I' E. rewrite !AG in E by auto. apply INJD; assumption. }
    unfold rename_all. rewrite OKN, (distinct_ok _ NDV), (distinct_ok _ NDD). cbn [andb].
    change (exists x', Ok (relabel (newname l) x) = Ok x' /\
      map fst (coords x') = map (cutf a) (map fst (coords x)) /\ map fst (vars x') = map (cutf a) (map fst (vars x)) /\
      (forall d, In d (all_dims x') <-> exists e, In e (all_dims x) /\ d = cutf a e) /\
      (forall d, In d (all_dims x) -> sz x' (cutf a d) = sz x d) /\
      (forall k v, assoc (coords x) k = Some v -> assoc (coords x') (cutf a k) = Some (moved (cutf a) v)) /\
      (forall k v, assoc (vars x) k = Some v -> assoc (vars x') (cutf a k) = Some (moved (cutf a) v))).
    assert (KC : forall k, In k (map fst (coords x)) -> In k (map fst (all_vars x))).
    { intros k I. unfold all_vars. rewrite map_app. apply in_app_iff. auto. }
    assert (KV : forall k, In k (map fst (vars x)) -> In k (map fst (all_vars x))).
    { intros k I. unfold all_vars. rewrite map_app. apply in_app_iff. auto. }
    assert (MV : forall k v, In (k, v) (all_vars x) -> moved (newname l) v = moved (cutf a) v).
    { intros k v I. unfold moved. f_equal. apply map_agree. intros d D. apply AG. right. apply in_dims. eauto. }
    exists (relabel (newname l) x). split; [reflexivity|]. split; [|split; [|split; [|split; [|split]]]].
    + cbn [relabel coords]. rewrite map_map. cbn [fst]. rewrite <- (map_map fst (newname l)). apply map_agree. auto.
    + cbn [relabel vars]. rewrite map_map. cbn [fst]. rewrite <- (map_map fst (newname l)). apply map_agree. auto.
    + intro d. rewrite dims_relabel. split; intros (e & I & ->); exists e; (split; [exact I|rewrite AG by auto; reflexivity]).
    + intros d I. rewrite <- AG by auto. apply sz_relabel; [|exact I]. intros e J Q. rewrite !AG in Q by auto. apply INJD; assumption.
    + intros k v A. pose proof (assoc_mem _ _ _ A) as I.
      assert (IK : In k (map fst (coords x))) by (apply in_map_iff; exists (k, v); auto).
      rewrite <- AG by auto. rewrite <- (MV k v) by (unfold all_vars; apply in_app_iff; auto).
      apply key_assoc; [|exact A]. intros k' K' Q. rewrite !AG in Q by auto. apply INJ; auto.
    + intros k v A. pose proof (assoc_mem _ _ _ A) as I.
      assert (IK : In k (map fst (vars x))) by (apply in_map_iff; exists (k, v); auto).
      rewrite <- AG by auto. rewrite <- (MV k v) by (unfold all_vars; apply in_app_iff; auto).
      apply key_assoc; [|exact A]. intros k' K' Q. rewrite !AG in Q by auto. apply INJ; auto.
Qed.
End Pass.

Section Both.
Variables (m : mobj) (dims : list string) (a b : string).
Hypothesis S : suffixed m dims a b.
Let la := (lat_dim m ++ a)%string.
Let lo := (lon_dim m ++ b)%string.

Lemma la_in : In la dims.
Proof. exact (proj1 (su_lat _ _ _ _ S)). Qed.
Lemma lo_in : In lo dims.
Proof. exact (proj1 (su_lon _ _ _ _ S)). Qed.
Lemma lat_cut : cutf a la = lat_dim m.
Proof. symmetry. apply cut_iff. apply (su_lat _ _ _ _ S). Qed.
Lemma lon_cut : cutf b lo = lon_dim m.
Proof. symmetry. apply cut_iff. apply (su_lon _ _ _ _ S). Qed.
Lemma occurs_app s p q : occurs_in s p -> occurs_in s (p ++ q).
Proof. intros (u & w & ->). exists u, (w ++ q)%string. rewrite !sapp_assoc. reflexivity. Qed.
Lemma lat_no_b : b = "" \/ ~ occurs_in b (lat_dim m).
Proof.
  destruct (su_b _ _ _ _ S) as [B|B]; [auto|]. right. intro O. apply (B la); [exact la_in|exact (su_diff _ _ _ _ S)|].
  apply occurs_app. exact O.
Qed.
Lemma dim_cases e : In e dims ->
  (e = la /\ cutf a e = lat_dim m /\ cutf b (cutf a e) = lat_dim m) \/
  (e = lo /\ cutf a e = e /\ cutf b (cutf a e) = lon_dim m) \/
  (e <> la /\ e <> lo /\ cutf a e = e /\ cutf b (cutf a e) = e).
Proof.
  intro I. destruct (string_dec e la) as [->|N1].
  - left. split; [reflexivity|]. split; [exact lat_cut|]. rewrite lat_cut. apply cutf_not. exact lat_no_b.
  - right. assert (CA : cutf a e = e).
    { apply cutf_not. destruct (su_a _ _ _ _ S) as [A|A]; [auto|]. right. apply A; assumption. }
    destruct (string_dec e lo) as [->|N2].
    + left. split; [reflexivity|]. split; [exact CA|]. rewrite CA. exact lon_cut.
    + right. split; [exact N1|]. split; [exact N2|]. split; [exact CA|]. rewrite CA. apply cutf_not.
      destruct (su_b _ _ _ _ S) as [B|B]; [auto|]. right. apply B; assumption.
Qed.
Lemma not_lat e : In e dims -> e = lat_dim m -> e = la.
Proof. intros I E. apply (su_lat_only _ _ _ _ S); [exact I|]. rewrite <- E. rewrite <- (sapp_nil e) at 2. apply prefix_app. Qed.
Lemma not_lon e : In e dims -> e = lon_dim m -> e = lo.
Proof. intros I E. apply (su_lon_only _ _ _ _ S); [exact I|]. rewrite <- E. rewrite <- (sapp_nil e) at 2. apply prefix_app. Qed.
Lemma lat_not_lon : lat_dim m <> lon_dim m.
Proof.
  intro E. apply (su_diff _ _ _ _ S). symmetry. apply (su_lat_only _ _ _ _ S); [exact lo_in|]. rewrite E. apply prefix_app.
Qed.
Lemma dims_inj e e' : In e dims -> In e' dims -> cutf b (cutf a e) = cutf b (cutf a e') -> e = e'.
Proof.
  intros I I' E. pose proof lat_not_lon as LL.
  destruct (dim_cases e I) as [(-> & _ & Q)|[(-> & _ & Q)|(N1 & N2 & _ & Q)]];
  destruct (dim_cases e' I') as [(-> & _ & Q')|[(-> & _ & Q')|(N1' & N2' & _ & Q')]]; pose proof (eq_trans (eq_sym Q) (eq_trans E Q')) as X; clear E; try congruence.
  - symmetry in X. apply not_lat in X; [congruence|exact I'].
  - symmetry in X. apply not_lon in X; [congruence|exact I'].
  - apply not_lat in X; [congruence|exact I].
  - apply not_lon in X; [congruence|exact I].
Qed.

Theorem strip_ok : exists m', remove_appended_str false dims m = Ok m' /\
  time_dim m' = time_dim m /\ height_dim m' = height_dim m /\ lat_dim m' = lat_dim m /\ lon_dim m' = lon_dim m /\
  (forall d, In d (all_dims (mds m')) <-> exists e, In e dims /\ cleaned a b e d) /\
  (forall e d, In e dims -> cleaned a b e d -> sz (mds m') d = sz (mds m) e) /\
  (forall k v t, field (mds m) k v -> cleaned a b k t -> exists v', field (mds m') t v' /\ same_values a b v v') /\
  (forall k v t, assoc (coords (mds m)) k = Some v -> cleaned a b k t ->
     exists v', assoc (coords (mds m')) t = Some v' /\ same_values a b v v') /\
  (forall t, In t (map fst (vars (mds m'))) <-> exists k, In k (map fst (vars (mds m))) /\ cleaned a b k t).
Proof.
  destruct (su_dims _ _ _ _ S) as [ND DM].
  assert (KEYS := su_keys _ _ _ _ S).
  assert (CL : forall k k', In k (map fst (all_vars (mds m))) -> In k' (map fst (all_vars (mds m))) ->
     cutf b (cutf a k) = cutf b (cutf a k') -> k = k').
  { intros k k' I I' E. apply (su_clash _ _ _ _ S k k' (cutf b (cutf a k)) I I'); apply clean_iff; [reflexivity|exact E]. }
  destruct (pass_ok dims (mds m) (lat_dim m) a ND) as (x1 & E1 & C1 & V1 & D1 & S1 & AC1 & AV1).
  { exact la_in. } { apply DM. exact la_in. } { exact (su_lat_only _ _ _ _ S). } { exact (proj2 (su_lat _ _ _ _ S)). } { exact (su_a _ _ _ _ S). }
  { intros n [I|I]; [|left; apply DM; exact I]. destruct (su_coords _ _ _ _ S n I) as [H|[H _]]; [auto|auto]. }
  { exact KEYS. }
  { intros k k' I I' E. apply CL; [exact I|exact I'|rewrite E; reflexivity]. }
  { intros d d' I I' E. apply dims_inj; [apply DM; exact I|apply DM; exact I'|rewrite E; reflexivity]. }
  assert (K1 : map fst (all_vars x1) = map (cutf a) (map fst (all_vars (mds m)))).
  { unfold all_vars. rewrite !map_app, C1, V1. reflexivity. }
  destruct (pass_ok dims x1 (lon_dim m) b ND) as (x2 & E2 & C2 & V2 & D2 & S2 & AC2 & AV2).
  { exact lo_in. }
  { apply D1. exists lo. split; [apply DM; exact lo_in|]. destruct (dim_cases lo lo_in) as [(Q & _)|[(_ & Q & _)|(_ & Q & _)]]; [| |tauto].
    - exfalso. apply (su_diff _ _ _ _ S). symmetry. exact Q.
    - symmetry. exact Q. }
  { exact (su_lon_only _ _ _ _ S). } { exact (proj2 (su_lon _ _ _ _ S)). } { exact (su_b _ _ _ _ S). }
  { assert (DD : forall e, In e dims -> In (cutf a e) dims \/ b = "" \/ ~ occurs_in b (cutf a e)).
    { intros e I. destruct (dim_cases e I) as [(-> & Q & _)|[(-> & Q & _)|(_ & _ & Q & _)]]; rewrite Q; [right; exact lat_no_b|auto|auto]. }
    intros n [I|I].
    - rewrite C1 in I. apply in_map_iff in I as (k & <- & I). destruct (su_coords _ _ _ _ S k I) as [H|[H1 H2]]; [apply DD; exact H|].
      rewrite cutf_not by exact H1. right. exact H2.
    - apply D1 in I as (e & I & ->). apply DD. apply DM. exact I. }
  { rewrite K1. apply nodup_inj; [exact KEYS|]. intros k k' I I' E. apply CL; [exact I|exact I'|rewrite E; reflexivity]. }
  { rewrite K1. intros k k' I I' E. apply in_map_iff in I as (n & <- & I). apply in_map_iff in I' as (n' & <- & I').
    f_equal. apply CL; assumption. }
  { intros d d' I I' E. apply D1 in I as (e & I & ->). apply D1 in I' as (e' & I' & ->). f_equal.
    apply dims_inj; [apply DM; exact I|apply DM; exact I'|exact E]. }
  exists (with_ds m x2). split; [unfold remove_appended_str; rewrite E1; cbn [bind]; rewrite E2; reflexivity|].
  do 4 (split; [reflexivity|]). cbn [with_ds mds].
  assert (SV : forall v, same_values a b v (moved (cutf b) (moved (cutf a) v))).
  { intro v. split; [|reflexivity]. unfold moved. cbn [vdims]. induction (vdims v) as [|d ds IH]; constructor; [|exact IH].
    apply clean_iff. reflexivity. }
  split; [|split; [|split; [|split]]].
  - intro d. rewrite D2. split.
    + intros (e & I & ->). apply D1 in I as (e0 & I & ->). exists e0. split; [apply DM; exact I|apply clean_iff; reflexivity].
    + intros (e & I & Q). apply clean_iff in Q. subst d. exists (cutf a e). split; [|reflexivity]. apply D1. exists e. split; [apply DM; exact I|reflexivity].
  - intros e d I Q. apply clean_iff in Q. subst d. rewrite S2 by (apply D1; exists e; split; [apply DM; exact I|reflexivity]).
    apply S1. apply DM. exact I.
  - intros k v t F Q. apply clean_iff in Q. subst t. eexists. split; [|apply SV]. unfold field. apply AV2. apply AV1. exact F.
  - intros k v t F Q. apply clean_iff in Q. subst t. eexists. split; [|apply SV]. apply AC2. apply AC1. exact F.
  - intro t. rewrite V2, V1, map_map. split.
    + intro I. apply in_map_iff in I as (k & <- & I). exists k. split; [exact I|apply clean_iff; reflexivity].
    + intros (k & I & Q). apply clean_iff in Q. subst t. apply in_map_iff. exists k. auto.
Qed.
End Both.
