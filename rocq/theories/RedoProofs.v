(** Ctrl-r under the Vi keys (C88). *)
From Verif Require Import Base BufferModel UtilModel HistoryModel EditorState EditorModel KeymapModel ViModel
  MonadLemmas EditorLemmas EditorSpec EditorProofs SuggestProofs.
Local Open Scope monad_scope.

Definition kept (s s' : ed) : Prop := ed_new s' = ed_new s /\ ed_hist s' = ed_hist s.
Lemma refresh_kept : forall fw s, is_search (refresh_search fw s) = true /\ kept s (refresh_search fw s).
Proof. intros fw s. unfold refresh_search. split; [destruct fw; reflexivity|split; reflexivity]. Qed.
Lemma freshen_kept : forall s, kept s (freshen_history s).
Proof. intro s. unfold freshen_history. destruct (h_share (ed_history s) && negb (ed_fresh s)); split; reflexivity. Qed.
Lemma step_kept : forall fw s, is_search (search_step fw s) = is_search s /\ kept s (search_step fw s).
Proof. intros fw s. unfold search_step. destruct (ed_subset s); [repeat split|]. destruct (ed_subloc s); repeat split. Qed.
Lemma display_kept : forall E s u s', is_search s = true -> display E s = ORet u s' -> is_search s' = true /\ kept s s'.
Proof.
  intros E s u s' Hs H. pose proof (display_out E s) as D. rewrite H in D.
  destruct D as [g [b [tcl [cb [tty [_ [_ ->]]]]]]].
  assert (R : is_search (refreshed s) = true /\ kept s (refreshed s)).
  { unfold refreshed. destruct (is_search s && ed_changed s); [apply refresh_kept|repeat split; exact Hs]. }
  unfold shown. revert R. generalize (refreshed s) as r. intros r R. exact R.
Qed.
Lemma search_keeps : forall E s u s', search E false s = ORet u s' -> is_search s' = true /\ kept s s'.
Proof.
  intros E s u s' H. unfold search, bind, modify in H.
  match type of H with display E ?x = _ => assert (S : is_search x = true /\ kept s x); [|revert S H; generalize x] end.
  { destruct (is_search s) eqn:Es; cbn [negb].
    - destruct (step_kept false s) as [H1 H2]. split; [congruence|exact H2].
    - destruct (refresh_kept false (freshen_history s)) as [H1 [H2 H3]]. destruct (freshen_kept s) as [H4 H5].
      split; [exact H1|]. split; congruence. }
  intros s1 [S1 [S2 S3]] D. destruct (display_kept E s1 u s' S1 D) as [H1 [H2 H3]]. split; [exact H1|]. split; congruence.
Qed.

Lemma ctrl_r_searches : forall {K} (core : env -> key -> MK K unit) E x s d x' s',
  handle_key core E (KCtrl (ch "r")) (x, s) = ORet d (x', s') ->
  d = false /\ x' = x /\ is_search s' = true /\ ed_new s' = ed_new s /\ ed_hist s' = ed_hist s.
Proof.
  intros K core E x s d x' s'.
  assert (N : forall y, In y ["h"; "c"; "d"; "f"]%string -> is_char (ch "r") y = false).
  { intros y [<-|[<-|[<-|[<-|[]]]]]; reflexivity. }
  assert (R : is_char (ch "r") "r" = true) by reflexivity.
  revert N R. generalize (ch "r") as c. intros c N R H.
  unfold handle_key in H. unfold bind at 1 in H. cbn [gete] in H.
  unfold bind at 1 in H. destruct (cur_buf s) as [b|] eqn:Hb; [|discriminate]. cbv beta iota zeta in H.
  rewrite (N "h"%string) in H by (cbn; tauto). cbv beta iota in H.
  rewrite (N "c"%string), (N "d"%string), (N "f"%string), R in H by (cbn; tauto). cbn [andb] in H.
  unfold bind, lift in H. destruct (search E false s) as [u s1| | |] eqn:Es; try discriminate. cbn in H.
  destruct (e_wok E); [|discriminate]. injection H; intros; subst. destruct (search_keeps E s u s' Es) as [H1 [H2 H3]]. auto.
Qed.
