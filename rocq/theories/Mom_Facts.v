(** Facts about dataset computations, variable names and non-interference. *)
From Verif Require Import Mom_Base Mom_Spec Xr_Facts.
From Verif Require Gen_Facts.
Local Open Scope string_scope.

(** *** Variable names *)
Lemma app_str_inj p a b : p ++ a = p ++ b -> a = b.
Proof. induction p as [|x p IH]; simpl; intro H; [exact H|]. injection H; exact IH. Qed.
Lemma app_str_len a b : String.length (a ++ b) = (String.length a + String.length b)%nat.
Proof. induction a; simpl; auto. Qed.
Lemma app_str_inj_r s a b : a ++ s = b ++ s -> a = b.
Proof.
  revert b. induction a as [|x a IH]; intros [|y b] H; auto.
  - exfalso. apply (f_equal String.length) in H. simpl in H. rewrite app_str_len in H. lia.
  - exfalso. apply (f_equal String.length) in H. simpl in H. rewrite app_str_len in H. lia.
  - simpl in H. injection H as -> H. f_equal. apply IH; exact H.
Qed.
Fixpoint lastc (s : string) : option ascii :=
  match s with
  | EmptyString => None
  | String c EmptyString => Some c
  | String _ s' => lastc s'
  end.
Lemma lastc_app a x s : lastc (a ++ String x s) = lastc (String x s).
Proof.
  induction a as [|y a IH]; [reflexivity|].
  change (String y a ++ String x s) with (String y (a ++ String x s)).
  destruct (a ++ String x s) eqn:E; [destruct a; discriminate|]. exact IH.
Qed.
Lemma cs_tail_inj h h' c c' : h ++ "_" ++ cs c = h' ++ "_" ++ cs c' -> h = h' /\ c = c'.
Proof.
  intro H. assert (c = c') as <-.
  { apply (f_equal lastc) in H. simpl in H. rewrite !lastc_app in H.
    destruct c, c'; try reflexivity; discriminate. }
  split; [|reflexivity]. apply (app_str_inj_r ("_" ++ cs c)); exact H.
Qed.
Lemma out_inj f h h' c c' : out f h c = out f h' c' -> h = h' /\ c = c'.
Proof. unfold out. intro H. do 3 apply app_str_inj in H. apply cs_tail_inj; exact H. Qed.
Lemma out_neq f h h' c : h <> h' -> out f h c <> out f h' c.
Proof. intros N H. apply out_inj in H. tauto. Qed.

(** *** Reading and assigning *)
Lemma get_put_same l k (v : mv) : assoc (put l k v) k = Some v.
Proof. apply Gen_Facts.assoc_put_same. Qed.
Lemma get_put_other l k k' (v : mv) : k' <> k -> assoc (put l k v) k' = assoc l k'.
Proof. apply Gen_Facts.assoc_put_other. Qed.

Lemma g3_var s n a : var3 s n a -> g3 s n = Ok a.
Proof. unfold var3, g3. intros ->. reflexivity. Qed.
Lemma g2_var s n a : var2 s n a -> g2 s n = Ok a.
Proof. unfold var2, g2. intros ->. reflexivity. Qed.
Lemma gb_var s n a : varb s n a -> gb s n = Ok a.
Proof. unfold varb, gb. intros ->. reflexivity. Qed.
Lemma g3_ok s n a : g3 s n = Ok a -> var3 s n a.
Proof. unfold var3, g3. destruct (assoc (dvars s) n) as [[]|]; congruence. Qed.
Lemma g2_ok s n a : g2 s n = Ok a -> var2 s n a.
Proof. unfold var2, g2. destruct (assoc (dvars s) n) as [[]|]; congruence. Qed.
Lemma gb_ok s n a : gb s n = Ok a -> varb s n a.
Proof. unfold varb, gb. destruct (assoc (dvars s) n) as [[]|]; congruence. Qed.
Lemma has_var3 s n a : var3 s n a -> has s n = true.
Proof. unfold var3, has. intros ->. reflexivity. Qed.

Definition upd (s : dset) (n : string) (v : mv) : dset := mkds (put (dvars s) n v) (dseen s).
Lemma assign_eq n v s : assign n v s = (Ok tt, upd s n v).
Proof. reflexivity. Qed.
Lemma upd_same s n v : assoc (dvars (upd s n v)) n = Some v.
Proof. apply get_put_same. Qed.
Lemma upd_other s n v x : x <> n -> assoc (dvars (upd s n v)) x = assoc (dvars s) x.
Proof. apply get_put_other. Qed.

Lemma bind_rd {A B} (f : dset -> res A) (k : A -> L B) s a :
  f s = Ok a -> lbind (rd f) k s = k a s.
Proof. unfold lbind, rd. intros ->. reflexivity. Qed.
Lemma bind_ok {A B} (m : L A) (k : A -> L B) s a s' :
  m s = (Ok a, s') -> lbind m k s = k a s'.
Proof. unfold lbind. intros ->. reflexivity. Qed.
Lemma bind_assign {B} n v (k : unit -> L B) s : lbind (assign n v) k s = k tt (upd s n v).
Proof. reflexivity. Qed.
Lemma bind_lret {A B} (a : A) (k : A -> L B) s : lbind (lret a) k s = k a s.
Proof. reflexivity. Qed.
Lemma lbind_assoc {A B C} (m : L A) (f : A -> L B) (g : B -> L C) s :
  lbind (lbind m f) g s = lbind m (fun a => lbind (f a) g) s.
Proof. unfold lbind. destruct (m s) as [[a|e] s']; reflexivity. Qed.
Lemma bind_inv {A B} (m : L A) (k : A -> L B) s b s' :
  lbind m k s = (Ok b, s') -> exists a s1, m s = (Ok a, s1) /\ k a s1 = (Ok b, s').
Proof. unfold lbind. destruct (m s) as [[a|e] s1]; [eauto|discriminate]. Qed.
Lemma rd_inv {A} (f : dset -> res A) s a s' : rd f s = (Ok a, s') -> f s = Ok a /\ s' = s.
Proof. unfold rd. intro H. injection H as -> ->. auto. Qed.
Lemma rd_bind_inv {A B} (f : dset -> res A) (k : A -> L B) s b s' :
  lbind (rd f) k s = (Ok b, s') -> exists a, f s = Ok a /\ k a s = (Ok b, s').
Proof. unfold lbind, rd. destruct (f s) as [a|e]; [eauto|discriminate]. Qed.

Lemma res_bind_ok {A B} (x : res A) (f : A -> res B) b :
  bind x f = Ok b -> exists a, x = Ok a /\ f a = Ok b.
Proof. destruct x; simpl; [eauto|discriminate]. Qed.

(** [ds[name] += a]. *)
Lemma add_to_eq n a v s : var3 s n v -> add_to n a s = (Ok tt, upd s n (V3 (lift2 xadd v a))).
Proof. intro H. unfold add_to. rewrite (bind_rd _ _ _ v) by (apply g3_var; exact H). apply assign_eq. Qed.

(** *** Frames: a computation changes at most the listed variables. *)
Definition frame {A} (W : list string) (m : L A) : Prop :=
  forall s x, ~ In x W -> assoc (dvars (snd (m s))) x = assoc (dvars s) x.
Lemma frame_ret {A} W (a : A) : frame W (lret a).
Proof. intros s x _. reflexivity. Qed.
Lemma frame_raise {A} W e : frame W (@lraise A e).
Proof. intros s x _. reflexivity. Qed.
Lemma frame_rd {A} W (f : dset -> res A) : frame W (rd f).
Proof. intros s x _. reflexivity. Qed.
Lemma frame_assign W n v : In n W -> frame W (assign n v).
Proof. intros H s x N. apply upd_other. intros ->. auto. Qed.
Lemma frame_bind {A B} W (m : L A) (k : A -> L B) :
  frame W m -> (forall a, frame W (k a)) -> frame W (lbind m k).
Proof.
  intros Hm Hk s x N. unfold lbind. specialize (Hm s x N).
  destruct (m s) as [[a|e] s']; simpl in *; [|exact Hm].
  rewrite (Hk a s' x N). exact Hm.
Qed.
Lemma frame_add_to W n a : In n W -> frame W (add_to n a).
Proof. intro H. apply frame_bind; [apply frame_rd|]. intro. apply frame_assign; exact H. Qed.
Lemma frame_weaken {A} W W' (m : L A) : (forall x, In x W -> In x W') -> frame W m -> frame W' m.
Proof. intros H F s x N. apply F. auto. Qed.
Lemma frame_run {A} W (m : L A) s r s' : frame W m -> m s = (r, s') -> unchanged_except W s s'.
Proof. intros F E x N. specialize (F s x N). rewrite E in F. exact F. Qed.

(** *** Non-interference: the result depends only on the variables in [D],
    and on success the variables in [D'] of the two final states agree. *)
Definition agree (D : string -> Prop) (s t : dset) : Prop :=
  forall x, D x -> assoc (dvars s) x = assoc (dvars t) x.
Definition dep {A} (D : string -> Prop) (m : L A) (D' : string -> Prop) : Prop :=
  forall s t, agree D s t ->
    match m s, m t with
    | (Ok a, s'), (Ok b, t') => a = b /\ agree D' s' t'
    | (Raise a, _), (Raise b, _) => a = b
    | _, _ => False
    end.
Definition plus (D : string -> Prop) (n : string) : string -> Prop := fun x => D x \/ x = n.
Lemma dep_ret {A} D (a : A) : dep D (lret a) D.
Proof. intros s t H. simpl. auto. Qed.
Lemma dep_raise {A} D D' e : dep D (@lraise A e) D'.
Proof. intros s t H. simpl. auto. Qed.
Lemma dep_rd {A} D (f : dset -> res A) : (forall s t, agree D s t -> f s = f t) -> dep D (rd f) D.
Proof. intros Hf s t H. unfold rd. rewrite (Hf s t H). destruct (f t); auto. Qed.
Lemma dep_assign D n v : dep D (assign n v) (plus D n).
Proof.
  intros s t H. rewrite !assign_eq. split; [reflexivity|]. intros x Hx.
  destruct (string_dec x n) as [->|N]; [rewrite !upd_same; reflexivity|].
  rewrite !upd_other by exact N. destruct Hx; [auto|tauto].
Qed.
Lemma dep_bind {A B} D D1 D2 (m : L A) (k : A -> L B) :
  dep D m D1 -> (forall a, dep D1 (k a) D2) -> dep D (lbind m k) D2.
Proof.
  intros Hm Hk s t H. specialize (Hm s t H). unfold lbind.
  destruct (m s) as [[a|x] s'], (m t) as [[b|y] t']; try tauto.
  destruct Hm as [-> H1]. apply Hk. exact H1.
Qed.
Lemma dep_weaken {A} (D D1 D' D1' : string -> Prop) (m : L A) :
  (forall x, D x -> D1 x) -> (forall x, D1' x -> D' x) -> dep D m D' -> dep D1 m D1'.
Proof.
  intros H1 H2 Hd s t H. assert (G : agree D s t) by (intros x Hx; auto).
  specialize (Hd s t G). destruct (m s) as [[a|?] s'], (m t) as [[b|?] t']; try tauto.
  destruct Hd as [-> Ha]. split; [reflexivity|]. intros x Hx. auto.
Qed.
Lemma agree_g3 (D : string -> Prop) s t n : agree D s t -> D n -> g3 s n = g3 t n.
Proof. intros H Hn. unfold g3. rewrite (H n Hn). reflexivity. Qed.
Lemma agree_g2 (D : string -> Prop) s t n : agree D s t -> D n -> g2 s n = g2 t n.
Proof. intros H Hn. unfold g2. rewrite (H n Hn). reflexivity. Qed.
Lemma agree_gb (D : string -> Prop) s t n : agree D s t -> D n -> gb s n = gb t n.
Proof. intros H Hn. unfold gb. rewrite (H n Hn). reflexivity. Qed.
Lemma agree_has (D : string -> Prop) s t n : agree D s t -> D n -> has s n = has t n.
Proof. intros H Hn. unfold has. rewrite (H n Hn). reflexivity. Qed.
Lemma dep_add_to (D : string -> Prop) n a : D n -> dep D (add_to n a) D.
Proof.
  intro Hn. unfold add_to. eapply dep_bind.
  - apply dep_rd. intros s t H. eapply agree_g3; eauto.
  - intro v. apply (dep_weaken D D (plus D n) D); [auto| |apply dep_assign].
    intros x Hx. left; exact Hx.
Qed.

(** Running again from the state reached by a successful run gives the same
    data, when everything the computation reads is outside what it writes. *)
Lemma rerun {A} W (m : L A) s a s1 :
  frame W m -> dep (fun x => ~ In x W) m (fun _ => True) ->
  m s = (Ok a, s1) ->
  exists s2, m s1 = (Ok a, s2) /\ forall x, assoc (dvars s2) x = assoc (dvars s1) x.
Proof.
  intros F Hd E.
  assert (G : agree (fun x => ~ In x W) s s1).
  { intros x N. symmetry. apply (frame_run W m s (Ok a) s1 F E x N). }
  specialize (Hd s s1 G). rewrite E in Hd.
  destruct (m s1) as [[b|?] s2]; [|tauto]. destruct Hd as [<- H].
  exists s2. split; [reflexivity|]. intro x. symmetry. apply H. exact I.
Qed.
Lemma bind_add_to {B} n a v (k : unit -> L B) s :
  var3 s n v -> lbind (add_to n a) k s = k tt (upd s n (V3 (lift2 xadd v a))).
Proof. intro H. exact (bind_ok _ _ _ tt _ (add_to_eq n a v s H)). Qed.
Lemma same_value_refl a : same_value a a.
Proof. destruct a as [[]|]; simpl; auto. Qed.
Lemma same_data_refl s : same_data s s.
Proof. intro. apply same_value_refl. Qed.
Lemma same_value_sym a b : same_value a b -> same_value b a.
Proof. destruct a as [[]|], b as [[]|]; simpl; auto. Qed.
Lemma same_value_trans a b c : same_value a b -> same_value b c -> same_value a c.
Proof.
  destruct a as [[]|], b as [[]|], c as [[]|]; simpl; try tauto; intros H1 H2; intros;
    rewrite H1; apply H2.
Qed.
