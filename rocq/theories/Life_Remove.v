(** Removal of subcolumn fields within the history of an object. *)
From Verif Require Import Life_Model Spec_Common.
Local Open Scope string_scope.
Lemma prefix_app a b : String.prefix a b = true <-> exists y, b = a ++ y.
Proof.
  revert b. induction a as [|x a IH]; intro b.
  - split; [intros _; exists b; reflexivity|]. intros _. destruct b; reflexivity.
  - destruct b as [|z b]; simpl; [split; [discriminate|intros [y H]; discriminate]|].
    destruct (Ascii.ascii_dec x z) as [->|N].
    + rewrite IH. split; intros [y H]; exists y; [rewrite H; reflexivity|injection H as ->; reflexivity].
    + split; [discriminate|]. intros [y H]. injection H as H _. congruence.
Qed.
Lemma has_text_iff b a : has_text b a = true <-> exists x y, b = x ++ a ++ y.
Proof.
  induction b as [|c b IH]; cbn [has_text]; rewrite Bool.orb_true_iff, prefix_app.
  - split; [intros [[y H]|H]; [exists "", y; exact H|discriminate]|]. intros (x & y & H). left. destruct x; [exists y; exact H|discriminate].
  - rewrite IH. split.
    + intros [[y H]|(x & y & ->)]; [exists "", y; exact H|exists (String c x), y; reflexivity].
    + intros (x & y & H). destruct x as [|d x]; [left; exists y; exact H|]. right. injection H as <- ->. exists x, y. reflexivity.
Qed.
Lemma remove_event cl m k v : In (k, v) (ds (life [Remove cl] m)) <->
  In (k, v) (ds m) /\ ~ ((exists x y, k = x ++ cl ++ y) /\ exists t, In t ["sub_col"; "subcol"; "phase_mask"] /\ exists x y, k = x ++ t ++ y).
Proof.
  cbn [life fold_left run_event remove_fields snd ds]. rewrite filter_In, Bool.negb_true_iff, <- Bool.not_true_iff_false, Bool.andb_true_iff.
  cbn [fst]. rewrite has_text_iff, existsb_exists.
  assert (Q : (exists t, In t ["sub_col"; "subcol"; "phase_mask"] /\ has_text k t = true) <->
              (exists t, In t ["sub_col"; "subcol"; "phase_mask"] /\ exists x y, k = x ++ t ++ y)).
  { split; intros (t & I & H); exists t; (split; [exact I|]); apply has_text_iff; exact H. }
  rewrite Q. reflexivity.
Qed.
Lemma remove_rest cl m : dim_sub (life [Remove cl] m) = dim_sub m /\ ntime (life [Remove cl] m) = ntime m.
Proof. split; reflexivity. Qed.
