(** Facts about the building blocks of [Gen_Model]. *)
From Verif Require Export Np_Facts Gen_Model Gen_Spec Precip_Proofs.
From Coq Require Import Lqa ZifyBool ZifyNat.
Local Open Scope nat_scope.

(** ** Setting the number of subcolumns *)

Definition with_dim (n : nat) (m : mdl) : mdl :=
  {| ds := ds m; dim_sub := Some n; ntime := ntime m; process_conv := process_conv m; nm := nm m |}.

Lemma no_sub_existsb m : no_subcolumn_fields m -> existsb (fun p => is_sub (snd p)) (ds m) = false.
Proof.
  unfold no_subcolumn_fields. intro H. induction H as [|p l (g & E) _ IH]; [reflexivity|].
  cbn [existsb]. rewrite E, IH. reflexivity.
Qed.

Lemma set_dim_unset n m : no_subcolumn_fields m -> set_dim n m = (Ok tt, with_dim n m).
Proof. intro H. unfold set_dim. rewrite (no_sub_existsb _ H). reflexivity. Qed.

Lemma set_dim_same n m : dim_sub m = Some n -> set_dim n m = (Ok tt, with_dim n m).
Proof. intro H. unfold set_dim. rewrite H, Nat.eqb_refl, andb_false_r. reflexivity. Qed.

(** ** Rounding *)

Lemma round_he_rounded x : rounded x (round_he x).
Proof.
  pose proof (round_he_near x) as H. split.
  - rewrite Qabs_Qminus. exact H.
  - intro E. unfold round_he in *. pose proof (Qfloor_le x) as H1. pose proof (Qlt_floor x) as H2.
    rewrite inject_Z_plus in H2. change (inject_Z 1) with 1%Q in *.
    destruct (Qcompare_spec (x - inject_Z (Qfloor x)) (1 # 2)) as [A|A|A].
    + destruct (Z.even (Qfloor x)) eqn:Ev; [exact Ev|].
      rewrite Z.even_add, Ev. reflexivity.
    + exfalso. rewrite Qabs_pos in E by lra. lra.
    + exfalso. rewrite inject_Z_plus in E. change (inject_Z 1) with 1%Q in E.
      rewrite Qabs_neg in E by lra. lra.
Qed.

Lemma rounded_unique x k k' : rounded x k -> rounded x k' -> k = k'.
Proof.
  intros [A A'] [B B']. apply Qabs_Qle_condition in A. apply Qabs_Qle_condition in B.
  destruct (Z.eq_dec k k') as [E|E]; [exact E|exfalso].
  assert (Hd : (k' = k + 1 \/ k = k' + 1)%Z).
  { destruct A as [A1 A2], B as [B1 B2].
    assert (C1 : (inject_Z k <= inject_Z (k' + 1))%Q) by (rewrite inject_Z_plus; change (inject_Z 1) with 1%Q; lra).
    assert (C2 : (inject_Z k' <= inject_Z (k + 1))%Q) by (rewrite inject_Z_plus; change (inject_Z 1) with 1%Q; lra).
    rewrite <- Zle_Qle in C1, C2. lia. }
  assert (Hk : (Qabs (x - inject_Z k) == 1 # 2 /\ Qabs (x - inject_Z k') == 1 # 2)%Q).
  { destruct A as [A1 A2], B as [B1 B2].
    destruct Hd as [Hd|Hd]; subst; rewrite inject_Z_plus in *; change (inject_Z 1) with 1%Q in *.
    - split; [rewrite Qabs_pos by lra|rewrite Qabs_neg by lra]; lra.
    - split; [rewrite Qabs_neg by lra|rewrite Qabs_pos by lra]; lra. }
  destruct Hk as [Hk1 Hk2]. specialize (A' Hk1). specialize (B' Hk2).
  destruct Hd as [-> | ->]; rewrite Z.even_add in *; rewrite ?A', ?B' in *; simpl in *; congruence.
Qed.

Lemma count_of_range N f : (0 <= f <= 1)%Q -> (0 <= count_of N f <= Z.of_nat N)%Z.
Proof. apply round_count_range. Qed.

Lemma above_thr_iff thr q : above_thr thr q = true <-> (thr < q)%Q.
Proof. apply Qlt_bool_iff. Qed.

Lemma above_thr_false thr q : above_thr thr q = false <-> (q <= thr)%Q.
Proof. apply Qlt_bool_false. Qed.

Lemma count_requested_micro thr q f N : requested false thr q f N (count_of N f).
Proof. right. split; [intros [H _]; discriminate|apply round_he_rounded]. Qed.

Lemma count_of_0 N : count_of N 0 = 0%Z.
Proof.
  unfold count_of. rewrite (round_he_comp _ (inject_Z 0)); [apply round_he_int|].
  change (inject_Z 0) with 0%Q. ring.
Qed.

Lemma count_requested_rad thr q f N : requested true thr q f N (count_of N (frac_where thr q f)).
Proof.
  unfold frac_where. destruct (above_thr thr q) eqn:E.
  - right. apply above_thr_iff in E. split; [intros [_ H]; lra|apply round_he_rounded].
  - left. apply above_thr_false in E. split; [reflexivity|]. split; [exact E|apply count_of_0].
Qed.

Lemma requested_unique rad thr q f N k k' :
  requested rad thr q f N k -> requested rad thr q f N k' -> k = k'.
Proof.
  intros [(A & B & C)|[A B]] [(A' & B' & C')|[A' B']]; try congruence; try tauto.
  eapply rounded_unique; eassumption.
Qed.

(** ** Lists *)

Lemma map2r_ok {A B C} (f : A -> B -> C) a b : length a = length b ->
  exists c, map2r f a b = Ok c /\ length c = length a /\
    forall i da db dc, i < length a -> nth i c dc = f (nth i a da) (nth i b db).
Proof.
  revert b; induction a as [|x a IH]; intros [|y b] H; simpl in *; try discriminate.
  - eexists; split; [reflexivity|]; split; [reflexivity|]. intros; lia.
  - destruct (IH b) as (c & E & Hl & Hc); [congruence|]. rewrite E; simpl.
    eexists; split; [reflexivity|]; split; [simpl; congruence|].
    intros [|i] da db dc Hi; [reflexivity|]. simpl; apply Hc; lia.
Qed.

Lemma map2m_ok {A B C} (f : A -> B -> res C) (R : A -> B -> C -> Prop) a b :
  length a = length b ->
  (forall i da db, i < length a -> exists c, f (nth i a da) (nth i b db) = Ok c /\ R (nth i a da) (nth i b db) c) ->
  exists c, map2m f a b = Ok c /\ length c = length a /\
    forall i da db dc, i < length a -> R (nth i a da) (nth i b db) (nth i c dc).
Proof.
  revert b; induction a as [|x a IH]; intros [|y b] H Hf; simpl in *; try discriminate.
  - eexists; split; [reflexivity|]; split; [reflexivity|]. intros; lia.
  - destruct (Hf 0 x y) as (z & Ez & Rz); [lia|]. simpl in *.
    destruct (IH b) as (c & E & Hl & Hc); [congruence| |].
    { intros i da db Hi. apply (Hf (S i) da db). lia. }
    rewrite Ez, E; simpl. eexists; split; [reflexivity|]; split; [simpl; congruence|].
    intros [|i] da db dc Hi; [exact Rz|]. simpl; apply Hc; lia.
Qed.

Lemma shape2_row {A} T H (g : list (list A)) t : shape2 T H g -> t < T -> length (nth t g []) = H.
Proof. intros [Hl Hr] Ht. apply Hr, nth_In. lia. Qed.

Lemma shape2_intro {A} T H (g : list (list A)) : length g = T ->
  (forall t, t < T -> length (nth t g []) = H) -> shape2 T H g.
Proof.
  intros Hl Hr. split; [exact Hl|]. intros r Hin. destruct (In_nth _ _ [] Hin) as (t & Ht & <-). apply Hr; lia.
Qed.

Lemma shape3_cell {A} T H N (g : list (list (list A))) t j :
  shape3 T H N g -> t < T -> j < H -> length (at2 [] g t j) = N.
Proof.
  intros [Hs Hc] Ht Hj. apply (Hc (nth t g [])).
  - apply nth_In. destruct Hs; lia.
  - apply nth_In. rewrite (shape2_row T H) by assumption. exact Hj.
Qed.

Lemma shape3_intro {A} T H N (g : list (list (list A))) : shape2 T H g ->
  (forall t j, t < T -> j < H -> length (at2 [] g t j) = N) -> shape3 T H N g.
Proof.
  intros Hs Hc. split; [exact Hs|]. intros r Hr c Hin.
  destruct (In_nth _ _ [] Hr) as (t & Ht & <-). destruct (In_nth _ _ [] Hin) as (j & Hj & <-).
  destruct Hs as [Hl Hrow]. apply Hc; [lia|]. rewrite (Hrow _ Hr) in Hj. exact Hj.
Qed.

Lemma grid2_ok {A B C} (f : A -> B -> C) T H a b :
  shape2 T H a -> shape2 T H b ->
  exists c, grid2 f a b = Ok c /\ shape2 T H c /\
    forall t j da db dc, t < T -> j < H -> at2 dc c t j = f (at2 da a t j) (at2 db b t j).
Proof.
  intros Ha Hb. unfold grid2.
  destruct (map2m_ok (map2r f) (fun x y z => length z = length x /\
     forall i da db dc, i < length x -> nth i z dc = f (nth i x da) (nth i y db)) a b) as (c & E & Hl & Hc).
  - destruct Ha, Hb; congruence.
  - intros i da db Hi. rewrite (nth_indep a da []), (nth_indep b db []) by (destruct Ha, Hb; lia).
    destruct (map2r_ok f (nth i a []) (nth i b [])) as (z & Ez & Hz); [|exists z; split; assumption].
    rewrite (shape2_row T H a), (shape2_row T H b); auto; destruct Ha; lia.
  - assert (HlT : length a = T) by apply Ha.
    exists c. split; [exact E|]. split.
    + apply shape2_intro; [congruence|]. intros t Ht.
      destruct (Hc t [] [] []) as [Hz _]; [lia|]. rewrite Hz. apply (shape2_row T H); assumption.
    + intros t j da db dc Ht Hj. unfold at2. destruct (Hc t [] [] []) as [_ Hz]; [lia|].
      apply Hz. rewrite (shape2_row T H); assumption.
Qed.

Lemma at2_map {A B} (f : A -> B) (g : list (list A)) T H t j da db :
  shape2 T H g -> t < T -> j < H -> at2 db (map (map f) g) t j = f (at2 da g t j).
Proof.
  intros Hs Ht Hj. unfold at2.
  rewrite (nth_indep _ [] (map f [])) by (rewrite map_length; destruct Hs; lia).
  rewrite map_nth. rewrite (nth_indep _ db (f da)) by (rewrite map_length, (shape2_row T H); assumption).
  apply map_nth.
Qed.

Lemma shape2_map {A B} (f : A -> B) (g : list (list A)) T H : shape2 T H g -> shape2 T H (map (map f) g).
Proof.
  intros [Hl Hr]. split; [rewrite map_length; exact Hl|].
  intros r Hin. apply in_map_iff in Hin. destruct Hin as (x & <- & Hx). rewrite map_length. apply Hr, Hx.
Qed.

Lemma at2_in {A} T H (g : list (list A)) d t j : shape2 T H g -> t < T -> j < H ->
  exists r, In r g /\ In (at2 d g t j) r.
Proof.
  intros Hs Ht Hj. exists (nth t g []). split; [apply nth_In; destruct Hs; lia|].
  apply nth_In. rewrite (shape2_row T H); assumption.
Qed.

Lemma proportions_at T H g d t j : shape2 T H g -> proportions g -> t < T -> j < H ->
  (0 <= at2 d g t j <= 1)%Q.
Proof. intros Hs Hp Ht Hj. destruct (at2_in T H g d t j Hs Ht Hj) as (r & Hr & Hin). eapply Hp; eassumption. Qed.

Lemma mapM_seq {B} (f : nat -> res B) (R : nat -> B -> Prop) a n :
  (forall t, a <= t < a + n -> exists y, f t = Ok y /\ R t y) ->
  exists l, mapM f (seq a n) = Ok l /\ length l = n /\ forall t d, t < n -> R (a + t) (nth t l d).
Proof.
  revert a; induction n as [|n IH]; intros a Hf; simpl.
  - eexists; split; [reflexivity|]; split; [reflexivity|]. intros; lia.
  - destruct (Hf a) as (y & Ey & Ry); [lia|].
    destruct (IH (S a)) as (l & El & Hl & HR); [intros t Ht; apply Hf; lia|].
    rewrite Ey, El; simpl. eexists; split; [reflexivity|]; split; [simpl; congruence|].
    intros [|t] d Ht; [rewrite Nat.add_0_r; exact Ry|]. simpl.
    replace (a + S t) with (S a + t) by lia. apply HR. lia.
Qed.

(** ** Orders *)

Lemma arange_nat a n : arange (Z.of_nat a) (Z.of_nat (a + n)) = map Z.of_nat (seq a n).
Proof.
  unfold arange. replace (Z.to_nat (Z.of_nat (a + n) - Z.of_nat a)) with n by lia.
  assert (G : forall k, map (fun i => (Z.of_nat a + Z.of_nat i)%Z) (seq k n) = map Z.of_nat (seq (a + k) n)).
  { induction n as [|n IH]; intro k; simpl; [reflexivity|]. f_equal; [lia|].
    rewrite IH. f_equal. f_equal. lia. }
  rewrite G, Nat.add_0_r. reflexivity.
Qed.

Lemma mapM_map {A B C} (g : A -> B) (f : B -> res C) l : mapM f (map g l) = mapM (fun x => f (g x)) l.
Proof. induction l as [|x l IH]; simpl; [reflexivity|]. rewrite IH; reflexivity. Qed.

Lemma mapM_ext {A B} (f g : A -> res B) l : (forall x, f x = g x) -> mapM f l = mapM g l.
Proof. intro H; induction l as [|x l IH]; simpl; [reflexivity|]. rewrite H, IH; reflexivity. Qed.

Lemma run_columns_seq {A} (f : nat -> res A) T :
  run_columns (arange 0 (Z.of_nat T)) f = mapM f (seq 0 T).
Proof.
  unfold run_columns. change 0%Z with (Z.of_nat 0). replace T with (0 + T) at 1 by lia. rewrite arange_nat.
  rewrite mapM_map. apply mapM_ext. intro x.
  destruct (Z.ltb_spec (Z.of_nat x) (Z.of_nat 0)); [lia|]. rewrite Nat2Z.id. reflexivity.
Qed.

Lemma chunk_loop_ok fuel T c j : (1 <= c)%Z -> (0 <= j)%Z -> (T <= j + Z.of_nat fuel)%Z ->
  chunk_loop fuel T c j = Ok (arange j (Z.max j T)).
Proof.
  intro Hc. revert j; induction fuel as [|fuel IH]; intros j Hj Hf; cbn [chunk_loop].
  - destruct (Z.ltb_spec j T); [lia|]. rewrite Z.max_l by lia. unfold arange.
    replace (Z.to_nat (j - j)) with 0 by lia. reflexivity.
  - destruct (Z.ltb_spec j T) as [Hlt|Hge].
    + rewrite IH by lia. cbn [bind]. f_equal.
      destruct (Z.geb_spec (j + c) T) as [Hg|Hg].
      * rewrite (Z.max_l (j + c)) by lia. rewrite Z.max_r by lia. unfold arange at 2.
        replace (Z.to_nat (j + c - (j + c))) with 0 by lia. apply app_nil_r.
      * rewrite !Z.max_r by lia. unfold arange.
        replace (Z.to_nat (T - j)) with (Z.to_nat (j + c - j) + Z.to_nat (T - (j + c))) by lia.
        rewrite seq_app, map_app. f_equal.
        simpl. set (n := Z.to_nat (j + c - j)).
        assert (Hn : (Z.of_nat n = c)%Z) by lia. clearbody n.
        assert (G : forall k b, map (fun i => (j + c + Z.of_nat i)%Z) (seq b k)
                                = map (fun i => (j + Z.of_nat i)%Z) (seq (n + b) k)).
        { induction k as [|k IHk]; intro b; simpl; [reflexivity|]. f_equal; [lia|].
          rewrite IHk. f_equal. f_equal. lia. }
        rewrite G, Nat.add_0_r. reflexivity.
    + rewrite Z.max_l by lia. unfold arange. replace (Z.to_nat (j - j)) with 0 by lia. reflexivity.
Qed.

(** A schedule whose chunk size, if any, is positive. *)
Lemma tt_order_good s T : good_sched s -> tt_order s T = Ok (arange 0 (Z.of_nat T)).
Proof.
  destruct s as [|[c|]]; simpl; intro H; try reflexivity.
  rewrite chunk_loop_ok by lia. f_equal. f_equal. lia.
Qed.

(** ** State *)

Lemma assoc_put_same {A} (l : list (string * A)) k v : assoc (put l k v) k = Some v.
Proof.
  induction l as [|[x w] l IH]; simpl; [rewrite String.eqb_refl; reflexivity|].
  destruct (String.eqb x k) eqn:E; simpl; [rewrite String.eqb_refl; reflexivity|].
  rewrite E; exact IH.
Qed.

Lemma assoc_put_other {A} (l : list (string * A)) k k' v : k' <> k -> assoc (put l k v) k' = assoc l k'.
Proof.
  intro H. induction l as [|[x w] l IH]; simpl.
  - destruct (String.eqb_spec k k'); [congruence|reflexivity].
  - destruct (String.eqb_spec x k) as [->|E]; simpl.
    + destruct (String.eqb_spec k k'); [congruence|]. reflexivity.
    + destruct (String.eqb x k'); [reflexivity|exact IH].
Qed.

Definition stored (m : mdl) (name : string) (width : nat) (v : val) : mdl :=
  {| ds := put (ds m) name v; dim_sub := Some width; ntime := ntime m;
     process_conv := process_conv m; nm := nm m |}.

Lemma assign_ok m name width len v :
  (dim_sub m = Some width \/ dim_sub m = None) -> len = ntime m ->
  assign name width len v m = (Ok tt, stored m name width v).
Proof.
  intros Hd ->. unfold assign. rewrite Nat.eqb_refl, andb_true_r.
  destruct Hd as [-> | ->]; [rewrite Nat.eqb_refl|]; reflexivity.
Qed.

Lemma get_field m d h g : field m d h g ->
  exists name, get_name d h = ret name /\ get_grid name m = (Ok g, m).
Proof.
  intros (name & E1 & E2). exists name. unfold get_name. rewrite E1. split; [reflexivity|].
  unfold get_grid, mbind, get_var. rewrite E2. reflexivity.
Qed.

Lemma get_flags m name g : flags m name g -> get_flag name m = (Ok g, m).
Proof. intro E. unfold get_flag, mbind, get_var. rewrite E. reflexivity. Qed.

Lemma has_flags m name g : flags m name g -> has_var name m = true.
Proof. intro E. unfold has_var. rewrite E. reflexivity. Qed.

(** A field seen through a bind. *)
Lemma bind_field {B} m d h g (k : list (list Q) -> M B) :
  field m d h g ->
  mbind (get_name d h) (fun name => mbind (get_grid name) k) m = k g m.
Proof.
  intro Hf. destruct (get_field m d h g Hf) as (name & E1 & E2).
  rewrite E1. unfold mbind at 1, ret. unfold mbind. rewrite E2. reflexivity.
Qed.

Lemma bind_flags {B} m name g (k : list (list (list bool)) -> M B) :
  flags m name g -> mbind (get_flag name) k m = k g m.
Proof. intro H. unfold mbind. rewrite (get_flags m name g H). reflexivity. Qed.

Lemma bind_get {B} (k : mdl -> M B) m : mbind get k m = k m m.
Proof. reflexivity. Qed.
Lemma bind_ret {A B} (a : A) (k : A -> M B) m : mbind (ret a) k m = k a m.
Proof. reflexivity. Qed.
Lemma bind_lift {A B} (x : res A) a (k : A -> M B) m : x = Ok a -> mbind (lift x) k m = k a m.
Proof. intros ->. reflexivity. Qed.
Lemma bind_assoc {A B C} (x : M A) (f : A -> M B) (g : B -> M C) m :
  mbind (mbind x f) g m = mbind x (fun a => mbind (f a) g) m.
Proof. unfold mbind. destruct (x m) as [[a|e] m']; reflexivity. Qed.
