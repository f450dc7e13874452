(** Reading a line with the Emacs keys agrees with ReadSpec.v (C87). *)
From Verif Require Import Base Utf8 BufferModel UtilModel HistoryModel EditorState EditorModel
  KeymapModel ViModel MonadLemmas EditorLemmas CursorProofs Lemmas BufferSpec BufferProofs HistorySpec HistoryProofs
  UtilSpec UtilProofs EditorSpec EditorProofs SuggestProofs EditorOps EmacsSpec EmacsProofs
  BrowseSpec WalkSpec BrowseProofs PinProofs WalkProofs ErrorProofs SessionProofs EmacsSpec BookSpec BookProofs ReadSpec.
Local Open Scope monad_scope.

(** * No list of candidates comes up *)
Definition ck (s s' : ed) : Prop := ed_hint s = None -> ed_hint s' = None.
Lemma ck_refl : refl ck. Proof. intros s H. exact H. Qed.
Lemma ck_trans : trans ck. Proof. intros a b c H1 H2 H. auto. Qed.
Lemma ck_display : forall E, keeps ck (display E).
Proof.
  intros E s. pose proof (display_out E s) as H. destruct (display E s) as [a s'|e s'|p|]; auto.
  - intro Hs. destruct H as [g [b [tcl [cb [tty [_ [_ ->]]]]]]]. unfold shown, refreshed.
    destruct (is_search s && ed_changed s); exact Hs.
  - intro Hs. destruct H as [_ [g [c [tcl [cb [_ [-> _]]]]]]]. unfold shown, refreshed.
    destruct (is_search s && ed_changed s); exact Hs.
Qed.
Lemma ck_get_cur : keeps ck get_cur.
Proof. intro s. unfold get_cur. destruct (cur_buf s); [apply ck_refl|exact I]. Qed.
Lemma ck_mut : forall {A} (f : buffer -> res (A * buffer)), keeps ck (with_cur_mut f).
Proof.
  intros A f. apply (keeps_bind _ ck_trans).
  - intro s. unfold cur_prep. edsimp. destruct (ed_loc s); [|exact (ck_refl s)].
    destruct (ed_hvalid s); [intro H; exact H|].
    destruct (hist_get _ _); [|exact I]. destruct (copy_buffer _ _); [|exact I]. intro H; exact H.
  - intros _ s. unfold cur_upd. destruct (ed_loc s).
    + destruct (f (ed_hist s)) as [[a b]|]; [|exact I]. intro H; exact H.
    + destruct (f (ed_new s)) as [[a b]|]; [|exact I]. intro H; exact H.
Qed.
#[export] Hint Resolve ck_display ck_get_cur ck_mut : brw.
Ltac kc1 :=
  match goal with
  | |- keeps _ (modify _) => let s := fresh "s" in apply keeps_modify; intro s; cbv beta; intro; assumption
  | |- _ => kb1 ck_trans ck_refl
  end.
Lemma ck_accept : forall E, keeps ck (accept_autosuggestion E).
Proof. intro E. unfold accept_autosuggestion, move_cursor_to_end_of_line. repeat kc1. Qed.
Lemma ck_insert : forall E c, keeps ck (insert_after_cursor E c).
Proof. intros E c. unfold insert_after_cursor, insert_chars_after_cursor. repeat kc1. Qed.

Lemma booked_hint : forall E k x s d y, booked k -> ed_hint s = None ->
  handle_key emacs_core E k (x, s) = ORet d y -> ed_hint (snd y) = None.
Proof.
  intros E k x s d y Hk Hh H.
  assert (Nv : walks k -> ed_hint (snd y) = None).
  { intro W. destruct (walks_handle _ _ _ _ _ _ W H) as [_ [z [_ ->]]]. reflexivity. }
  assert (Ed : edits k -> ed_hint (snd y) = None).
  { intro He. destruct (edits_handle E k x s d y He H) as [_ [[_ [_ C]]|[_ [z [_ ->]]]]]; [|reflexivity].
    pose proof (ck_accept E s) as K. rewrite C in K. exact (K Hh). }
  destruct k; cbn [booked] in Hk; auto.
  - destruct (is_char c "p") eqn:C1; [apply N.eqb_eq in C1; subst; apply Nv; cbn; auto|].
    destruct (is_char c "n") eqn:C2; [apply N.eqb_eq in C2; subst; apply Nv; cbn; auto|].
    apply Ed. cbn [edits]. intros [<-|[<-|[<-|[<-|[<-|[]]]]]]; try discriminate; apply Hk; cbn; tauto.
Qed.

(** * Enter *)
Lemma continues_iff : forall z, continues z = true <-> after_backslash (zline z) (length (before z)).
Proof.
  intro z. unfold continues, zline. destruct (rev (before z)) as [|c l] eqn:Er.
  - apply (f_equal (@rev _)) in Er. rewrite rev_involutive in Er. rewrite Er. split; [discriminate|].
    intros [a [r [_ H]]]. discriminate.
  - apply (f_equal (@rev _)) in Er. rewrite rev_involutive in Er. cbn [rev] in Er. rewrite Er. rewrite N.eqb_eq. split.
    + intros ->. exists (rev l), (after z). rewrite <- app_assoc, app_length. cbn. split; [reflexivity|lia].
    + intros [a [r [H1 H2]]]. rewrite <- app_assoc in H1. cbn [app] in H1. rewrite app_length in H2. cbn in H2.
      assert (Hl : length (rev l) = length a) by lia.
      clear H2 Er. revert H1 Hl. generalize (rev l) as u. intro u. revert a. induction u as [|y u IH]; intros [|v a] H1 Hl; try discriminate.
      * injection H1. auto.
      * injection H1 as _ H1. injection Hl as Hl. eauto.
Qed.

Lemma w_insert : forall E c s i, is_search s = false -> ed_loc s = Some i ->
  ok (insert_after_cursor E c) s (fun _ s' => wr true s s').
Proof.
  intros E c s i Hs Hl. unfold insert_after_cursor, insert_chars_after_cursor. apply w_gets.
  eapply wr_mut; [exact Hs|exact Hl|]. intro. kbh'.
Qed.
Lemma enter_break : forall E s b s', is_search s = false -> ed_hint s = None -> cur_buf s = Val b ->
  handle_newline E s = ORet false s' -> insert_after_cursor E c_nl (clear_search (set_fresh false s)) = ORet tt s'.
Proof.
  intros E s b s' Hs Hh Hb H. unfold handle_newline, bind at 1 2 3 4 5, modify, get in H.
  change (is_search (set_fresh false s)) with (is_search s) in H. rewrite Hs in H. cbn [when] in H.
  unfold ret at 1 in H. set (s1 := clear_search (set_fresh false s)) in *.
  assert (H1 : cur_buf s1 = Val b) by exact Hb.
  change (ed_hint s1) with (ed_hint s) in H. rewrite Hh in H. unfold bind, get_cur in H. rewrite H1 in H.
  destruct (char_before b (ed_cursor s1)) as [c|].
  - destruct (N.eqb c c_bs).
    + destruct (insert_after_cursor E c_nl s1) as [[] s2| | |]; try discriminate. injection H as ->. reflexivity.
    + destruct (display_impl E false _) as [? ?| | |]; try discriminate. destruct (tty_write E _ _); discriminate.
  - destruct (display_impl E false _) as [? ?| | |]; try discriminate. destruct (tty_write E _ _); discriminate.
Qed.

Section Read.
  Context (words : text -> list (nat * nat)) (Hinc : forall t, increasing (words t)) (h : history) (Hshare : h_share h = false).
  Notation hs := (texts h).

  Lemma z_calm : forall at_ z s, zstate hs at_ z s -> zstate hs at_ z (clear_search (set_fresh false s)).
  Proof.
    intros at_ z s [[[b [[Hs V] [Hd Hu]]] [Hl [Hv [Ha Ht]]]] R]. split; [split; [exists b; split; [split; [reflexivity|exact V]|auto]|auto]|].
    unfold resugg in *. unfold current_autosuggestion in *. rewrite Hs in R. exact R.
  Qed.
  Lemma break_agrees : forall E b s u s', Rb h b s ->
    insert_after_cursor E c_nl (clear_search (set_fresh false s)) = ORet u s' -> agree h (b_break b) s'.
  Proof.
    intros E b s u s' [[Hh Hi] A] H. unfold agree, b_break in *. destruct (off b) as [a|]; cbn [off line copy].
    - destruct A as [i [Z [N1 [N2 [N3 [Hv [Hu [HL HP]]]]]]]]. pose proof (z_calm _ _ _ Z) as Z1.
      pose proof (ok_of _ _ _ _ _ (zk_type hs (Some i) E c_nl _ _ Z1) H) as W.
      set (s1 := clear_search (set_fresh false s)) in *.
      assert (Hs1 : is_search s1 = false) by reflexivity.
      assert (Hl1 : ed_loc s1 = Some i) by apply Z1.
      pose proof (r_insert1 E c_nl s1) as K. rewrite H in K. destruct (K Hs1) as [K1 [K2 [K3 [K4 K5]]]].
      assert (Wv : wr true s1 s').
      { exact (ok_of _ _ _ _ _ (w_insert E c_nl s1 i Hs1 Hl1) H). }
      destruct Wv as [Ws [Wv _]]. rewrite orb_true_r in Wv.
      assert (Hn : ed_new s' = ed_new s) by (rewrite K4 by congruence; reflexivity).
      exists i. cbn [line copy typed typed_earlier entry place edited].
      split; [exact W|]. split; [congruence|]. split; [rewrite Hn; exact N2|]. split; [exact N3|]. split; [exact Wv|].
      split; [discriminate|]. split; [exact HL|].
      pose proof (pos_loc _ _ K2) as L2. unfold pos in K2. injection K2 as _ K6 K7 _ _.
      eapply placed_forget; eauto.
      all: try (rewrite K6; reflexivity). all: try congruence.
    - destruct A as [Z Hc]. pose proof (z_calm _ _ _ Z) as Z1. split; [exact (ok_of _ _ _ _ _ (zk_type hs None E c_nl _ _ Z1) H)|].
      set (s1 := clear_search (set_fresh false s)) in *.
      pose proof (r_insert1 E c_nl s1) as K. rewrite H in K. destruct (K eq_refl) as [_ [_ [_ [_ K5]]]].
      eapply hist_same; [exact Hc|]. rewrite K5 by apply Z1. reflexivity.
  Qed.

  Lemma agree_flags : forall b s, agree h b s -> is_search s = false.
  Proof.
    intros b s A. unfold agree in A. destruct (off b); [destruct A as [i [Z _]]|destruct A as [Z _]]; apply (zstate_flags h _ _ _ Z).
  Qed.
  (** Enter. *)
  Lemma enter_step : forall E b x s d y, Rb h b s -> ed_hint s = None ->
    handle_key emacs_core E (KChar c_nl) (x, s) = ORet d y ->
    inv h (snd y) /\ d = negb (continues (line b)) /\
    (d = true -> ed_result (snd y) = Val (zline (line b))) /\
    (d = false -> agree h (b_break b) (snd y) /\ ed_hint (snd y) = None).
  Proof.
    intros E b x s d [x' s'] [HI A] Hh H. cbn [snd]. pose proof (agree_flags b s A) as Hs.
    destruct (agree_line h b s A) as [b0 [B1 [B2 B3]]].
    destruct (enter_plain_key _ E x s b0 d x' s' Hs B1 H) as [-> [P1 [P2 _]]].
    destruct (enter_key _ E x s b0 d x s' B1 H) as [_ K].
    split; [pose proof (i_newline h E s) as Q; rewrite K in Q; exact (Q HI)|].
    rewrite B2, B3 in P1. rewrite <- continues_iff in P1. split.
    { destruct d; destruct (continues (line b)); try reflexivity.
      - destruct (proj1 P1 eq_refl) as [_ C]. congruence.
      - apply P1. split; [exact Hh|discriminate]. }
    split; [intro Hd; rewrite <- B2; auto|]. intros ->.
    pose proof (enter_break E s b0 s' Hs Hh B1 K) as Q. split; [eapply break_agrees; [split; eassumption|exact Q]|].
    pose proof (ck_insert E c_nl (clear_search (set_fresh false s))) as C. rewrite Q in C. exact (C Hh).
  Qed.

  Lemma ctrl_c_fails : forall E x s d y, handle_key emacs_core E (KCtrl (ch "c")) (x, s) <> ORet d y.
  Proof. intros E x s d y H. pose proof (ctrl_c emacs_core E (x, s)) as K. rewrite H in K. exact K. Qed.
  Lemma ctrl_d_fails : forall E x s b d y, cur_buf s = Val b -> data b = [] ->
    handle_key emacs_core E (KCtrl (ch "d")) (x, s) <> ORet d y.
  Proof. intros E x s b d y Hb Hd H. pose proof (ctrl_d_empty emacs_core E x s b Hb Hd) as K. rewrite H in K. exact K. Qed.

  Definition replies (r : reply) (o : out (emacs * ed) bool) : Prop :=
    match o with
    | ORet _ (_, s) => ed_history s = h /\ exists t, ed_result s = Val t /\ r = Line t
    | OErr EInterrupted _ => r = Interrupted
    | OErr EUnexpectedEof _ => r = Eof
    | _ => True
    end.
  Lemma read_run : forall l b x s, Forall (fun y => readable (snd y) /\ e_words (fst y) = words) l -> Rb h b s -> ed_hint s = None ->
    replies (read words hs (map snd l) b) (run_keys emacs_core l (x, s)).
  Proof.
    induction l as [|[E k] l IH]; intros b x s Hl HR Hh.
    - cbn [run_keys map read ret replies]. destruct HR as [[H1 _] A]. split; [exact H1|].
      destruct (agree_line h b s A) as [b0 [B1 [B2 _]]]. exists (zline (line b)). split; [|reflexivity].
      unfold ed_result. rewrite B1. cbn [rbind]. rewrite <- B2. reflexivity.
    - destruct (Forall_inv Hl) as [H1 H2]. pose proof (Forall_inv_tail Hl) as H3. cbn [fst snd] in H1, H2.
      cbn [run_keys map fst snd]. unfold bind.
      destruct (agree_line h b s (proj2 HR)) as [b0 [B1 [B2 _]]].
      destruct (handle_key emacs_core E k (x, s)) as [d1 y1|e y| |] eqn:Eh; try exact I.
      + destruct H1 as [-> |[-> |H1]].
        * destruct (enter_step E b x s d1 y1 HR Hh Eh) as [I1 [D [P Q]]]. destruct y1 as [x1 s1]. cbn [snd] in *.
          cbn [read]. change (N.eqb c_nl c_nl) with true. cbv iota.
          destruct (continues (line b)); cbn [negb] in D; subst d1.
          -- destruct (Q eq_refl) as [Q1 Q2]. apply IH; [exact H3|split; assumption|exact Q2].
          -- cbn [ret replies]. split; [apply I1|]. eexists. split; [apply P; reflexivity|reflexivity].
        * exfalso. exact (ctrl_c_fails _ _ _ _ _ Eh).
        * assert (Rd : read words hs (k :: map snd l) b = read words hs (map snd l) (b_key words hs k b)).
          { destruct k; try reflexivity; cbn [read].
            - destruct (N.eqb c c_nl) eqn:Ec; [|reflexivity]. apply N.eqb_eq in Ec. subst c. exfalso. destruct H1 as [H1 H1']. congruence.
            - destruct (is_char c "c") eqn:Ec; [apply N.eqb_eq in Ec; subst c; exfalso; apply H1; cbn; tauto|].
              destruct (is_char c "d") eqn:Ed; [|reflexivity]. apply N.eqb_eq in Ed. subst c. cbn [andb].
              destruct (same [] (zline (line b))) eqn:Es; [|reflexivity]. apply same_iff in Es.
              exfalso. eapply ctrl_d_fails; [exact B1|congruence|exact Eh]. }
          rewrite Rd. destruct (book_step words Hinc h Hshare E k b x s d1 y1 H1 H2 HR Eh) as [-> HR1].
          pose proof (booked_hint _ _ _ _ _ _ H1 Hh Eh) as Hh1. destruct y1 as [x1 s1]. apply IH; assumption.
      + destruct (emacs_key_err E k x s b0 e y B1 Eh) as [T|[[-> ->]|[-> [T ->]]]].
        * destruct e; try exact I; destruct T as [T _]; try discriminate; destruct T.
        * reflexivity.
        * cbn [replies read]. change (is_char (ch "d") "c") with false. change (is_char (ch "d") "d") with true. cbn [andb].
          cbv iota. replace (same [] (zline (line b))) with true; [reflexivity|]. symmetry. apply same_iff. congruence.
  Qed.
End Read.

Lemma new_hint : forall E p f ib h w cb ttys s, editor_new E p f ib h w cb ttys = ORet tt s -> ed_hint s = None.
Proof.
  intros E p f ib h w cb ttys s H. unfold editor_new in H. cbv zeta in H. destruct (e_wok E); [|discriminate].
  cbn [negb] in H. set (s0 := mkEd _ _ _ _ _ _ _ _ _ _ _ _ _ _ _ _ _ _ _ _ _ _) in H.
  match type of H with ?m s0 = _ => assert (K : keeps ck m) end.
  { assert (T : forall t, keeps ck (tty_write E t)) by (intros t s1; unfold tty_write; destruct (e_wok E); intro Q; exact Q).
    unfold move_cursor_to_end_of_line. repeat kc1. }
  specialize (K s0). rewrite H in K. exact (K eq_refl).
Qed.
Lemma new_err : forall E p f ib h w cb ttys e s, editor_new E p f ib h w cb ttys = OErr e s -> e = EOther.
Proof.
  intros E p f ib h w cb ttys e s H. unfold editor_new in H. cbv zeta in H. destruct (e_wok E); [|injection H; auto].
  cbn [negb] in H. set (s0 := mkEd _ _ _ _ _ _ _ _ _ _ _ _ _ _ _ _ _ _ _ _ _ _) in H.
  match type of H with ?m s0 = _ => assert (K : errs (ttyerr E) m) end.
  { apply errs_bind; [apply errs_liftr|intro n]. apply errs_bind; [auto with er|intro].
    apply errs_bind; [|intro; auto with er]. unfold when. destruct (negb _); [apply er_move_end|apply errs_ret]. }
  specialize (K s0). rewrite H in K. apply K.
Qed.

Theorem emacs_reads : forall words E p f ib h w cb ttys l,
  (forall t, increasing (words t)) -> h_share h = false -> actions ib = [] ->
  Forall (fun y => readable (snd y) /\ e_words (fst y) = words) l ->
  let r := read words (texts h) (map snd l) (mkBook (mkZ (data ib) [] []) [[]] None) in
  match emacs_read_line E p f ib h w cb ttys l with
  | ORet t (_, s) => r = Line t /\ ed_history s = h
  | OErr EInterrupted _ => r = Interrupted
  | OErr EUnexpectedEof _ => r = Eof
  | _ => True
  end.
Proof.
  intros words E p f ib h w cb ttys l Hw Hsh Ha Hl r. unfold emacs_read_line, read_line.
  destruct (editor_new E p f ib h w cb ttys) as [[] s|e s| |] eqn:H0; try exact I.
  2: { rewrite (new_err _ _ _ _ _ _ _ _ _ _ H0). exact I. }
  assert (HR : Rb h (mkBook (mkZ (data ib) [] []) [[]] None) s).
  { split; [eapply inv_new; exact H0|]. split; [eapply z_new; eauto|].
    exists []. pose proof (new_hist _ _ _ _ _ _ _ _ _ H0) as K. rewrite K. split; [reflexivity|constructor]. }
  pose proof (read_run words Hw h Hsh l _ emacs_new s Hl HR (new_hint _ _ _ _ _ _ _ _ _ H0)) as K.
  fold r in K. unfold bind, ret. destruct (run_keys emacs_core l (emacs_new, s)) as [d [x s']|e y| |]; try exact I.
  - destruct K as [K1 [t [K2 K3]]]. cbn [gete]. unfold liftr. rewrite K2. auto.
  - exact K.
Qed.
