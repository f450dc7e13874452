(** General facts about lists, texts and results. *)
From Verif Require Import Base Utf8 BufferModel.

Lemma text_eqb_eq : forall a b, text_eqb a b = true <-> a = b.
Proof.
  induction a as [|x a IH]; destruct b as [|y b]; simpl; split; intro H; try easy.
  - apply andb_true_iff in H as [H1 H2]. apply N.eqb_eq in H1. apply IH in H2. congruence.
  - inversion H; subst. rewrite N.eqb_refl. simpl. apply IH. reflexivity.
Qed.
Lemma text_eqb_refl : forall a, text_eqb a a = true.
Proof. intro a. apply text_eqb_eq. reflexivity. Qed.
Lemma text_eqb_neq : forall a b, text_eqb a b = false <-> a <> b.
Proof.
  intros a b. rewrite <- text_eqb_eq. destruct (text_eqb a b); split; intro H; congruence.
Qed.
Lemma text_eq_dec : forall a b : text, {a = b} + {a <> b}.
Proof. apply list_eq_dec. apply N.eq_dec. Qed.

Lemma firstn_app_len : forall {A} (a b : list A), firstn (length a) (a ++ b) = a.
Proof. intros A a b. rewrite firstn_app, Nat.sub_diag, firstn_all, firstn_O, app_nil_r. reflexivity. Qed.
Lemma skipn_app_len : forall {A} (a b : list A), skipn (length a) (a ++ b) = b.
Proof. intros A a b. rewrite skipn_app, Nat.sub_diag, skipn_all. reflexivity. Qed.
Lemma firstn_app_eq : forall {A} n (a b : list A), n = length a -> firstn n (a ++ b) = a.
Proof. intros; subst; apply firstn_app_len. Qed.
Lemma skipn_app_eq : forall {A} n (a b : list A), n = length a -> skipn n (a ++ b) = b.
Proof. intros; subst; apply skipn_app_len. Qed.
Lemma skipn_add : forall {A} n m (l : list A), skipn n (skipn m l) = skipn (m + n) l.
Proof.
  intros A n m. induction m as [|m IH]; intro l; [reflexivity|].
  destruct l as [|x l]; simpl; [apply skipn_nil|apply IH].
Qed.
Lemma split3 : forall {A} (l : list A) s e, s <= e -> e <= length l ->
  exists a m c, l = a ++ m ++ c /\ length a = s /\ length a + length m = e.
Proof.
  intros A l s e H1 H2.
  exists (firstn s l), (firstn (e - s) (skipn s l)), (skipn e l).
  split; [|split].
  - replace (skipn e l) with (skipn (e - s) (skipn s l)).
    + rewrite firstn_skipn, firstn_skipn. reflexivity.
    + rewrite skipn_add. f_equal. lia.
  - rewrite firstn_length. lia.
  - rewrite !firstn_length, skipn_length. lia.
Qed.
Lemma split2 : forall {A} (l : list A) s, s <= length l ->
  exists a c, l = a ++ c /\ length a = s.
Proof.
  intros A l s H. exists (firstn s l), (skipn s l).
  rewrite firstn_skipn, firstn_length. split; [reflexivity|lia].
Qed.

Lemma rbind_val : forall {A B} (m : res A) (k : A -> res B) b,
  rbind m k = Val b -> exists a, m = Val a /\ k a = Val b.
Proof. intros A B [a|p] k b H; simpl in H; [eauto|discriminate]. Qed.

Lemma nonempty_false : forall {A} (l : list A), nonempty l = false <-> l = [].
Proof. intros A [|x l]; simpl; split; congruence. Qed.
Lemma nonempty_true : forall {A} (l : list A), nonempty l = true <-> l <> [].
Proof. intros A [|x l]; simpl; split; congruence. Qed.

Lemma last_opt_app : forall {A} (l : list A) x, last_opt (l ++ [x]) = Some x.
Proof.
  intros A l x. induction l as [|y l IH]; [reflexivity|].
  simpl. rewrite IH. destruct (l ++ [x]) eqn:E; [destruct l; discriminate|reflexivity].
Qed.
Lemma last_opt_None : forall {A} (l : list A), last_opt l = None <-> l = [].
Proof.
  intros A l. split; [|intro; subst; reflexivity].
  destruct l as [|x l]; [reflexivity|].
  induction l as [|y l IH] in x |- *; intro H; [discriminate|].
  exfalso. simpl in H. specialize (IH y). apply IH in H. discriminate.
Qed.
Lemma last_opt_Some : forall {A} (l : list A) x, last_opt l = Some x -> exists l', l = l' ++ [x].
Proof.
  intros A l x H. destruct (exists_last (l := l)) as [l' [y E]].
  - intro; subst; discriminate.
  - subst. rewrite last_opt_app in H. inversion H. eauto.
Qed.
