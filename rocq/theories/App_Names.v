(** Cutting names. *)
From Verif Require Import App_Spec Xds_Proofs Xds_Stack Xds_Round Xds_Fields Load_Facts.
Local Open Scope string_scope.
Local Open Scope list_scope.

Lemma sapp_assoc (a b c : string) : ((a ++ b) ++ c)%string = (a ++ b ++ c)%string.
Proof. induction a; simpl; [reflexivity|rewrite IHa; reflexivity]. Qed.
Lemma slen_app (a b : string) : String.length (a ++ b) = String.length a + String.length b.
Proof. induction a; simpl; auto. Qed.
Lemma sapp_nil (a : string) : (a ++ "")%string = a.
Proof. induction a; simpl; [reflexivity|rewrite IHa; reflexivity]. Qed.
Lemma sub_all s : String.substring 0 (String.length s) s = s.
Proof. induction s; simpl; [reflexivity|rewrite IHs; reflexivity]. Qed.
Lemma sub_zero s : String.substring 0 0 s = "".
Proof. destruct s; reflexivity. Qed.
Lemma sub_app_l p q n : n <= String.length p -> String.substring 0 n (p ++ q) = String.substring 0 n p.
Proof.
  revert n. induction p; intros n H; simpl in *; [assert (n = 0) as -> by lia; rewrite sub_zero; reflexivity|].
  destruct n; [reflexivity|]. rewrite IHp by lia. reflexivity.
Qed.
Lemma sub_app_r p q n : String.substring (String.length p) n (p ++ q) = String.substring 0 n q.
Proof. induction p; simpl; [reflexivity|exact IHp]. Qed.
Lemma sub_split n s : n <= String.length s -> s = (String.substring 0 n s ++ String.substring n (String.length s - n) s)%string.
Proof.
  revert n. induction s; intros n H; simpl in *; [assert (n = 0) as -> by lia; reflexivity|].
  destruct n; simpl; [rewrite sub_all; reflexivity|]. rewrite <- IHs by lia. reflexivity.
Qed.
Lemma sub_len n s : n <= String.length s -> String.length (String.substring 0 n s) = n.
Proof. revert n. induction s; intros n H; simpl in *; [destruct n; [reflexivity|lia]|]. destruct n; simpl; [reflexivity|rewrite IHs by lia; reflexivity]. Qed.
Lemma sub_bound k n s : String.length (String.substring k n s) <= String.length s - k.
Proof.
  revert k n. induction s; intros k n; simpl; [destruct k, n; simpl; lia|]. destruct k, n; simpl; try lia.
  - specialize (IHs 0 n). lia.
  - specialize (IHs k 0). lia.
  - specialize (IHs k (S n)). lia.
Qed.
Lemma sub_at p a q : String.substring (String.length p) (String.length a) (p ++ a ++ q) = a.
Proof. rewrite sub_app_r, sub_app_l by lia. apply sub_all. Qed.

Definition cutf (a s : string) : string :=
  if string_dec a "" then s else match head_at a s with Some b => b | None => s end.
Lemma head_some a s t : a <> "" -> head_at a s = Some t ->
  (exists q, s = (t ++ a ++ q)%string) /\ forall p q, s = (p ++ a ++ q)%string -> String.length t <= String.length p.
Proof.
  intros N H. unfold head_at in H. destruct (String.index 0 a s) as [n|] eqn:E; [|discriminate]. injection H as <-.
  pose proof (String.index_correct1 _ _ _ _ E) as C1.
  assert (L : String.length a <= String.length s - n).
  { pose proof (sub_bound n (String.length a) s) as B. rewrite C1 in B. exact B. }
  assert (LA : 0 < String.length a) by (destruct a; simpl; [tauto|lia]).
  assert (HN : n <= String.length s) by lia.
  split.
  - pose proof (sub_split n s HN) as SP. set (r := String.substring n (String.length s - n) s) in *.
    assert (LR : String.length a <= String.length r).
    { assert (String.length s = n + String.length r) by (rewrite SP at 1; rewrite slen_app, sub_len by exact HN; reflexivity). lia. }
    exists (String.substring (String.length a) (String.length r - String.length a) r).
    assert (A : String.substring 0 (String.length a) r = a).
    { set (p := String.substring 0 n s) in *. assert (LP : String.length p = n) by (apply sub_len; exact HN).
      assert (C2 : String.substring (String.length p) (String.length a) (p ++ r) = a) by (rewrite <- SP, LP; exact C1).
      rewrite sub_app_r in C2. exact C2. }
    rewrite SP at 1. f_equal. rewrite (sub_split (String.length a) r LR) at 1. rewrite A. reflexivity.
  - intros p q Q. rewrite sub_len by exact HN. destruct (Nat.le_gt_cases n (String.length p)) as [|G]; [assumption|exfalso].
    apply (String.index_correct2 _ _ _ _ E (String.length p)); [lia|lia|]. rewrite Q. apply sub_at.
Qed.
Lemma head_none a s : a <> "" -> head_at a s = None -> ~ occurs_in a s.
Proof.
  intros N H (p & q & Q). unfold head_at in H. destruct (String.index 0 a s) as [n|] eqn:E; [discriminate|].
  apply (String.index_correct3 0 (String.length p) a s E N); [lia|]. rewrite Q. apply sub_at.
Qed.
Lemma cutf_ok a s : cut_at a s (cutf a s).
Proof.
  unfold cutf. destruct (string_dec a "") as [->|N]; [left; auto|].
  destruct (head_at a s) as [t|] eqn:E.
  - right. split; [exact N|]. apply head_some; assumption.
  - left. split; [right; apply head_none; assumption|reflexivity].
Qed.
Lemma sapp_inj p q p' q' : (p ++ q)%string = (p' ++ q')%string -> String.length p = String.length p' -> p = p'.
Proof.
  revert p'. induction p; intros [|c p'] E L; simpl in *; try discriminate; [reflexivity|].
  injection E as -> E. injection L as L. rewrite (IHp p' E L). reflexivity.
Qed.
Lemma cut_fun a s t t' : cut_at a s t -> cut_at a s t' -> t = t'.
Proof.
  intros [(A & ->)|(N & (q & Q) & M)] [(B & ->)|(N' & (q' & Q') & M')].
  - reflexivity.
  - exfalso. destruct A as [A|A]; [tauto|]. apply A. exists t', q'. exact Q'.
  - exfalso. destruct B as [B|B]; [tauto|]. apply B. exists t, q. exact Q.
  - specialize (M _ _ Q'). specialize (M' _ _ Q). rewrite Q in Q' at 1. apply (sapp_inj _ _ _ _ Q'). lia.
Qed.
Lemma cut_iff a s t : cut_at a s t <-> t = cutf a s.
Proof. split; [intro H; eapply cut_fun; [exact H|apply cutf_ok]|intros ->; apply cutf_ok]. Qed.
Lemma clean_iff a b s t : cleaned a b s t <-> t = cutf b (cutf a s).
Proof.
  split.
  - intros (u & H1 & H2). apply cut_iff in H1. apply cut_iff in H2. congruence.
  - intros ->. exists (cutf a s). split; apply cutf_ok.
Qed.
Lemma cutf_not a s : a = "" \/ ~ occurs_in a s -> cutf a s = s.
Proof. intro H. symmetry. apply cut_iff. left. auto. Qed.
