(** Frame lemmas for the editor methods: what a redraw may change, and what no
    editor method changes. *)
From Verif Require Import Base Utf8 BufferModel UtilModel HistoryModel EditorState EditorModel
  KeymapModel ViModel MonadLemmas.
Local Open Scope monad_scope.

Ltac edsimp := cbn [set_prompt set_closure set_cursor set_new set_hist set_hvalid set_loc set_tcl
  set_hint set_showauto set_noeol set_rev set_fwd set_changed set_subset set_subloc set_sugg
  set_fresh set_history set_fs set_cbuf set_tty
  ed_prompt ed_closure ed_cursor ed_new ed_hist ed_hvalid ed_loc ed_tcl ed_hint ed_showauto
  ed_noeol ed_rev ed_fwd ed_changed ed_subset ed_subloc ed_sugg ed_fresh ed_history ed_fs ed_cbuf
  ed_tty fst snd].
Ltac edsimp_in H := cbn [set_prompt set_closure set_cursor set_new set_hist set_hvalid set_loc set_tcl
  set_hint set_showauto set_noeol set_rev set_fwd set_changed set_subset set_subloc set_sugg
  set_fresh set_history set_fs set_cbuf set_tty
  ed_prompt ed_closure ed_cursor ed_new ed_hist ed_hvalid ed_loc ed_tcl ed_hint ed_showauto
  ed_noeol ed_rev ed_fwd ed_changed ed_subset ed_subloc ed_sugg ed_fresh ed_history ed_fs ed_cbuf
  ed_tty fst snd] in H.

(** * Redrawing *)

(** The state [display] works on: a changed search term is searched again. *)
Definition refreshed (s : ed) : ed :=
  if is_search s && ed_changed s then refresh_search (ed_fwd s) s else s.

(** The parts of the state a redraw sets. *)
Definition shown (s : ed) (g : option buffer) (c tcl : nat) (cb tty : list tok) : ed :=
  set_tty tty (set_cbuf cb (set_tcl tcl (set_cursor c (set_sugg g s)))).

Lemma cur_buf_shown : forall s g c tcl cb tty, cur_buf (shown s g c tcl cb tty) = cur_buf s.
Proof. reflexivity. Qed.

Lemma shown_shown : forall s g c tcl cb tty g' c' tcl' cb' tty',
  shown (shown s g c tcl cb tty) g' c' tcl' cb' tty' = shown s g' c' tcl' cb' tty'.
Proof. reflexivity. Qed.

Lemma display_impl_out : forall E show s,
  match display_impl E show s with
  | ORet _ s' => exists b tcl cb tty, cur_buf s = Val b /\
      s' = shown s (ed_sugg s) (clamp_cursor (ed_noeol s) (num_chars b) (ed_cursor s)) tcl cb tty
  | OErr e s' => e = EOther /\ exists c tcl cb, s' = shown s (ed_sugg s) c tcl cb (ed_tty s) /\
      (c = ed_cursor s \/ exists b, cur_buf s = Val b /\
                          c = clamp_cursor (ed_noeol s) (num_chars b) (ed_cursor s))
  | OPanic _ => True
  | OFuel => False
  end.
Proof.
  intros E show s. unfold display_impl, bind, get, liftr.
  destruct (search_prompt (e_uni E) s) as [[prompt rpw]|p]; [|exact I].
  destruct (e_size E) as [w|]; cbn [terminal_width].
  2: { unfold fail. split; [reflexivity|]. exists (ed_cursor s), (ed_tcl s), (ed_cbuf s).
       split; [destruct s; reflexivity|left; reflexivity]. }
  destruct (match w with O => Some 80 | _ => Some w end) as [tw|] eqn:Etw.
  2: { destruct w; discriminate. }
  unfold get_cur. destruct (cur_buf s) as [b|p] eqn:Eb; [|exact I].
  unfold modify.
  destruct (display_render _ _ _ _ _ _ _ _) as [[toks tcl]|p]; [|exact I].
  unfold emit. destruct (e_wok E).
  - exists b, tcl, (ed_cbuf s ++ toks), (ed_tty s ++ toks). split; [reflexivity|]. destruct s; reflexivity.
  - split; [reflexivity|]. exists (clamp_cursor (ed_noeol s) (num_chars b) (ed_cursor s)), tcl, (ed_cbuf s ++ toks).
    split; [destruct s; reflexivity|]. right. exists b. split; reflexivity.
Qed.

(** The same with what is drawn. *)
Lemma display_impl_drawn : forall E show s,
  match display_impl E show s with
  | ORet _ s' => exists prompt rpw w tw b toks tcl,
      search_prompt (e_uni E) s = Val (prompt, rpw) /\ e_size E = Some w /\
      terminal_width (Some w) = Some tw /\ cur_buf s = Val b /\
      display_render (e_uni E) show tw w prompt rpw b
        (set_cursor (clamp_cursor (ed_noeol s) (num_chars b) (ed_cursor s)) s) = Val (toks, tcl) /\
      s' = shown s (ed_sugg s) (clamp_cursor (ed_noeol s) (num_chars b) (ed_cursor s)) tcl
             (ed_cbuf s ++ toks) (ed_tty s ++ toks)
  | _ => True
  end.
Proof.
  intros E show s. unfold display_impl, bind, get, liftr.
  destruct (search_prompt (e_uni E) s) as [[prompt rpw]|p]; [|exact I].
  destruct (e_size E) as [w|]; [|exact I].
  destruct (terminal_width (Some w)) as [tw|] eqn:Etw; [|exact I].
  unfold get_cur. destruct (cur_buf s) as [b|p] eqn:Eb; [|exact I].
  unfold modify.
  destruct (display_render _ _ _ _ _ _ _ _) as [[toks tcl]|p] eqn:Er; [|exact I].
  unfold emit. destruct (e_wok E); [|exact I].
  exists prompt, rpw, w, tw, b, toks, tcl. split; [reflexivity|]. split; [reflexivity|].
  split; [exact Etw|]. split; [reflexivity|]. split; [exact Er|]. destruct s; reflexivity.
Qed.

Lemma display_impl_of : forall E s u s', display E s = ORet u s' ->
  exists g, current_autosuggestion (refreshed s) = Val g /\
    display_impl E true (set_sugg g (refreshed s)) = ORet u s'.
Proof.
  intros E s u s'. unfold display, bind, get.
  assert (Hw : when (is_search s && ed_changed s) (modify (refresh_search (ed_fwd s))) s
               = ORet tt (refreshed s)).
  { unfold refreshed, when, modify, ret. destruct (is_search s && ed_changed s); reflexivity. }
  rewrite Hw. unfold liftr.
  destruct (current_autosuggestion (refreshed s)) as [g|p] eqn:Eg; [|discriminate].
  unfold modify. intro H. exists g. split; [reflexivity|exact H].
Qed.

Lemma display_out : forall E s,
  match display E s with
  | ORet _ s' => exists g b tcl cb tty,
      current_autosuggestion (refreshed s) = Val g /\ cur_buf (refreshed s) = Val b /\
      s' = shown (refreshed s) g
             (clamp_cursor (ed_noeol s) (num_chars b) (ed_cursor s)) tcl cb tty
  | OErr e s' => e = EOther /\ exists g c tcl cb,
      current_autosuggestion (refreshed s) = Val g /\
      s' = shown (refreshed s) g c tcl cb (ed_tty s) /\
      (c = ed_cursor s \/ exists b, cur_buf (refreshed s) = Val b /\
                          c = clamp_cursor (ed_noeol s) (num_chars b) (ed_cursor s))
  | OPanic _ => True
  | OFuel => False
  end.
Proof.
  intros E s. unfold display, bind, get.
  assert (Hw : when (is_search s && ed_changed s) (modify (refresh_search (ed_fwd s))) s
               = ORet tt (refreshed s)).
  { unfold refreshed, when, modify, ret. destruct (is_search s && ed_changed s); reflexivity. }
  rewrite Hw. unfold liftr.
  destruct (current_autosuggestion (refreshed s)) as [g|p] eqn:Eg; [|exact I].
  unfold modify. pose proof (display_impl_out E true (set_sugg g (refreshed s))) as H.
  assert (Hn : ed_noeol (refreshed s) = ed_noeol s /\ ed_cursor (refreshed s) = ed_cursor s /\
               ed_tty (refreshed s) = ed_tty s).
  { unfold refreshed. destruct (is_search s && ed_changed s); repeat split. }
  destruct Hn as [Hn [Hc Ht]].
  destruct (display_impl E true (set_sugg g (refreshed s))) as [a s'|e s'|p|]; auto.
  - destruct H as [b [tcl [cb [tty [H1 H2]]]]]. exists g, b, tcl, cb, tty.
    split; [reflexivity|]. split; [exact H1|]. rewrite H2. edsimp. rewrite Hn, Hc. reflexivity.
  - destruct H as [H0 [c [tcl [cb [H1 H2]]]]]. split; [exact H0|]. exists g, c, tcl, cb.
    split; [reflexivity|]. split; [rewrite H1; edsimp; rewrite Ht; reflexivity|].
    edsimp_in H2. rewrite Hc, Hn in H2. exact H2.
Qed.

Lemma wp_display_impl : forall E show s (Q : unit -> ed -> Prop) (X : ioerr -> ed -> Prop) (P : panic -> Prop),
  (forall b tcl cb tty, cur_buf s = Val b ->
     Q tt (shown s (ed_sugg s) (clamp_cursor (ed_noeol s) (num_chars b) (ed_cursor s)) tcl cb tty)) ->
  (forall c tcl cb tty, X EOther (shown s (ed_sugg s) c tcl cb tty)) ->
  (forall p, display_impl E show s = OPanic p -> P p) ->
  wp (display_impl E show) s Q X P.
Proof.
  intros E show s Q X P HQ HX HP. unfold wp. pose proof (display_impl_out E show s) as H.
  destruct (display_impl E show s) as [[] s'|e s'|p|] eqn:Ed; auto.
  - destruct H as [b [tcl [cb [tty [H2 ->]]]]]. apply HQ; assumption.
  - destruct H as [-> [c [tcl [cb [-> _]]]]]. apply HX.
Qed.

Lemma wp_display : forall E s (Q : unit -> ed -> Prop) (X : ioerr -> ed -> Prop) (P : panic -> Prop),
  (forall g b tcl cb tty, current_autosuggestion (refreshed s) = Val g ->
     cur_buf (refreshed s) = Val b ->
     Q tt (shown (refreshed s) g (clamp_cursor (ed_noeol s) (num_chars b) (ed_cursor s)) tcl cb tty)) ->
  (forall g c tcl cb tty, X EOther (shown (refreshed s) g c tcl cb tty)) ->
  (forall p, display E s = OPanic p -> P p) ->
  wp (display E) s Q X P.
Proof.
  intros E s Q X P HQ HX HP. unfold wp. pose proof (display_out E s) as H.
  destruct (display E s) as [[] s'|e s'|p|] eqn:Ed; auto.
  - destruct H as [g [b [tcl [cb [tty [H1 [H2 ->]]]]]]]. apply HQ; assumption.
  - destruct H as [-> [g [c [tcl [cb [_ [-> _]]]]]]]. apply HX.
Qed.

(** * The frame *)

(** No key changes the file system, the highlighter, the prompt text, the
    configuration of the history or the switch for suggestions; the history is
    only reloaded when it is shared. *)
Definition conf_same (h h' : history) : Prop :=
  h_file h' = h_file h /\ h_maxbuf h' = h_maxbuf h /\ h_maxfile h' = h_maxfile h /\
  h_appdup h' = h_appdup h /\ h_inc h' = h_inc h /\ h_share h' = h_share h /\
  h_loaddup h' = h_loaddup h.

Record frame (s s' : ed) : Prop := mkFrame {
  fr_fs : ed_fs s' = ed_fs s;
  fr_closure : ed_closure s' = ed_closure s;
  fr_prompt : pr_prompt (ed_prompt s') = pr_prompt (ed_prompt s);
  fr_showauto : ed_showauto s' = ed_showauto s;
  fr_conf : conf_same (ed_history s) (ed_history s');
  fr_history : h_share (ed_history s) = false -> ed_history s' = ed_history s
}.

Lemma conf_refl : forall h, conf_same h h.
Proof. intro h. repeat split. Qed.

Lemma frame_refl : refl frame.
Proof. intro s. constructor; auto using conf_refl. Qed.

Lemma frame_trans : trans frame.
Proof.
  intros a b c [H1 H2 H3 H4 H5 H6] [K1 K2 K3 K4 K5 K6].
  constructor; try congruence.
  - unfold conf_same in *. intuition congruence.
  - intro H. rewrite K6; [auto|]. rewrite H6; assumption.
Qed.

Lemma load_conf : forall w h append, conf_same h (snd (load_history w h append)).
Proof.
  intros w h append. unfold load_history. destruct (h_file h) as [p|] eqn:Ep; [|apply conf_refl].
  unfold load_history_file_test. destruct (fs_open w p) as [bs|]; [|apply conf_refl].
  cbn [snd]. destruct ((length bs =? 0) && (h_fsize h =? 0) && negb append);
    destruct (negb (length bs =? h_fsize h)); destruct append; cbn [clear_history set_buffers h_loaddup hist_truncate];
    destruct (h_loaddup h) eqn:El; repeat split; try assumption; try reflexivity.
Qed.

Lemma freshen_frame : forall s, frame s (freshen_history s).
Proof.
  intro s. unfold freshen_history. destruct (h_share (ed_history s)) eqn:Es; cbn [andb].
  - destruct (negb (ed_fresh s)); [|apply frame_refl].
    constructor; edsimp; try reflexivity; [apply load_conf|intro H; congruence].
  - apply frame_refl.
Qed.
Ltac frm := constructor; edsimp; auto using conf_refl.

Lemma refreshed_frame : forall s, frame s (refreshed s).
Proof. intro s. unfold refreshed. destruct (is_search s && ed_changed s); [frm|apply frame_refl]. Qed.

Lemma shown_frame : forall s g c tcl cb tty, frame s (shown (refreshed s) g c tcl cb tty).
Proof.
  intros. apply frame_trans with (refreshed s); [apply refreshed_frame|]. frm.
Qed.

Lemma keeps_display : forall E, keeps frame (display E).
Proof.
  intros E s. pose proof (display_out E s) as H. destruct (display E s) as [a s'|e s'|p|]; auto.
  - destruct H as [g [b [tcl [cb [tty [_ [_ ->]]]]]]]. apply shown_frame.
  - destruct H as [_ [g [c [tcl [cb [_ [-> _]]]]]]]. apply shown_frame.
Qed.

Lemma keeps_display_impl : forall E b, keeps frame (display_impl E b).
Proof.
  intros E b s. pose proof (display_impl_out E b s) as H. destruct (display_impl E b s) as [a s'|e s'|p|]; auto.
  - destruct H as [? [tcl [cb [tty [_ ->]]]]]. frm.
  - destruct H as [_ [c [tcl [cb [-> _]]]]]. frm.
Qed.

Lemma keeps_get_cur : keeps frame get_cur.
Proof. intro s. unfold get_cur. destruct (cur_buf s); [apply frame_refl|exact I]. Qed.

Lemma keeps_with_cur_mut : forall {A} (f : buffer -> res (A * buffer)), keeps frame (with_cur_mut f).
Proof.
  intros A f. apply (keeps_bind _ frame_trans).
  - intro s. unfold cur_prep. edsimp. destruct (ed_loc s); [|frm].
    destruct (ed_hvalid s); [frm|]. destruct (hist_get _ _); [|exact I].
    destruct (copy_buffer _ _); [frm|exact I].
  - intros _ s. unfold cur_upd. destruct (ed_loc s); [destruct (f (ed_hist s)) as [[a b]|]|destruct (f (ed_new s)) as [[a b]|]];
      auto; frm.
Qed.

Lemma keeps_tty_write : forall E t, keeps frame (tty_write E t).
Proof. intros E t s. unfold tty_write. destruct (e_wok E); [frm|apply frame_refl]. Qed.

#[export] Hint Resolve keeps_display keeps_display_impl keeps_get_cur keeps_with_cur_mut
  keeps_tty_write freshen_frame frame_refl : kp.

Ltac frame_modify :=
  let s := fresh "s" in
  apply keeps_modify; intro s; cbv beta;
  first [ apply frame_refl | solve [frm] | solve [auto with kp]
        | unfold clear_search; solve [frm]
        | unfold skip_completions_hint; solve [frm]
        | idtac ].

Ltac kp1 :=
  cbv beta zeta;
  match goal with
  | |- keeps _ (bind _ _) => apply (keeps_bind _ frame_trans); [|intro]
  | |- keeps _ (ret _) => apply (keeps_ret _ frame_refl)
  | |- keeps _ (fail _) => apply (keeps_fail _ frame_refl)
  | |- keeps _ (pan _) => apply keeps_pan
  | |- keeps _ get => apply (keeps_get _ frame_refl)
  | |- keeps _ (gets _) => apply (keeps_gets _ frame_refl)
  | |- keeps _ (liftr _) => apply (keeps_liftr _ frame_refl)
  | |- keeps _ (when _ _) => apply (keeps_when _ frame_refl)
  | |- keeps _ (modify _) => frame_modify
  | |- keeps _ (match ?x with _ => _ end) => destruct x
  | |- keeps _ _ => solve [auto with kp]
  end.
Ltac kp := repeat kp1.

Lemma keeps_move_end : forall E, keeps frame (move_cursor_to_end_of_line E).
Proof. intro E. unfold move_cursor_to_end_of_line. kp. Qed.
Lemma keeps_move_start : forall E, keeps frame (move_cursor_to_start_of_line E).
Proof. intro E. unfold move_cursor_to_start_of_line. kp. Qed.
Lemma keeps_move_to : forall E n, keeps frame (move_cursor_to E n).
Proof. intros E n. unfold move_cursor_to. kp. Qed.
Lemma keeps_move_left : forall E n, keeps frame (move_cursor_left E n).
Proof. intros E n. unfold move_cursor_left. kp. Qed.
Lemma keeps_move_right : forall E n, keeps frame (move_cursor_right E n).
Proof. intros E n. unfold move_cursor_right. kp. Qed.
Lemma keeps_insert : forall E t, keeps frame (insert_chars_after_cursor E t).
Proof. intros E t. unfold insert_chars_after_cursor. kp. Qed.
Lemma keeps_insert1 : forall E c, keeps frame (insert_after_cursor E c).
Proof. intros E c. apply keeps_insert. Qed.
Lemma keeps_insert_str : forall E c, keeps frame (insert_str_after_cursor E c).
Proof. intros E c. apply keeps_insert. Qed.
Lemma keeps_del_before : forall E, keeps frame (delete_before_cursor E).
Proof. intros E. unfold delete_before_cursor. kp. Qed.
Lemma keeps_del_after : forall E, keeps frame (delete_after_cursor E).
Proof. intros E. unfold delete_after_cursor. kp. Qed.
Lemma keeps_del_all_before : forall E, keeps frame (delete_all_before_cursor E).
Proof. intros E. unfold delete_all_before_cursor. kp. Qed.
Lemma keeps_del_all_after : forall E, keeps frame (delete_all_after_cursor E).
Proof. intros E. unfold delete_all_after_cursor. kp. Qed.
Lemma keeps_del_until : forall E n, keeps frame (delete_until E n).
Proof. intros E n. unfold delete_until. kp. Qed.
Lemma keeps_del_until_inc : forall E n, keeps frame (delete_until_inclusive E n).
Proof. intros E n. unfold delete_until_inclusive. kp. Qed.
Lemma keeps_del_word : forall E b, keeps frame (delete_word_before_cursor E b).
Proof. intros E b. unfold delete_word_before_cursor. kp. Qed.
Lemma keeps_clear : forall E, keeps frame (clear E).
Proof. intros E. unfold clear. kp. Qed.
#[export] Hint Resolve keeps_move_end keeps_move_start keeps_move_to keeps_move_left keeps_move_right
  keeps_insert keeps_insert1 keeps_insert_str keeps_del_before keeps_del_after keeps_del_all_before
  keeps_del_all_after keeps_del_until keeps_del_until_inc keeps_del_word keeps_clear : kp.

Lemma keeps_undo_like : forall E f, keeps frame (undo_like E f).
Proof. intros E f. unfold undo_like. kp. Qed.
#[export] Hint Resolve keeps_undo_like : kp.
Lemma keeps_undo : forall E, keeps frame (ed_undo E).
Proof. intro E. unfold ed_undo. kp. Qed.
Lemma keeps_redo : forall E, keeps frame (ed_redo E).
Proof. intro E. unfold ed_redo. kp. Qed.
Lemma keeps_revert : forall E, keeps frame (ed_revert E).
Proof. intro E. unfold ed_revert. kp. Qed.

Lemma refresh_search_frame : forall b s, frame s (refresh_search b s).
Proof. intros b s. frm. Qed.
Lemma search_step_frame : forall b s, frame s (search_step b s).
Proof.
  intros b s. unfold search_step. destruct (ed_subset s); [apply frame_refl|].
  destruct (ed_subloc s); frm.
Qed.
Lemma keeps_search : forall E b, keeps frame (search E b).
Proof.
  intros E b. unfold search. apply (keeps_bind _ frame_trans); [|intro; kp].
  apply keeps_modify. intro s. destruct (negb (is_search s)).
  - apply frame_trans with (freshen_history s); [apply freshen_frame|apply refresh_search_frame].
  - apply search_step_frame.
Qed.
#[export] Hint Resolve keeps_undo keeps_redo keeps_revert keeps_search : kp.

Lemma keeps_move_up : forall E, keeps frame (move_up E).
Proof.
  intros E. unfold move_up. kp. apply frame_trans with (set_hvalid false s); [frm|apply freshen_frame].
Qed.
Lemma keeps_move_down : forall E, keeps frame (move_down E).
Proof. intros E. unfold move_down. kp. Qed.
Lemma keeps_hist_start : forall E, keeps frame (move_to_start_of_history E).
Proof. intros E. unfold move_to_start_of_history. kp. Qed.
Lemma keeps_hist_end : forall E, keeps frame (move_to_end_of_history E).
Proof. intros E. unfold move_to_end_of_history. kp. Qed.
Lemma keeps_accept : forall E, keeps frame (accept_autosuggestion E).
Proof. intros E. unfold accept_autosuggestion. kp. Qed.
#[export] Hint Resolve keeps_move_up keeps_move_down keeps_hist_start keeps_hist_end keeps_accept : kp.
Lemma keeps_complete : forall E, keeps frame (complete E).
Proof. intros E. unfold complete. kp. Qed.
Lemma keeps_newline : forall E, keeps frame (handle_newline E).
Proof. intros E. unfold handle_newline. kp. Qed.
#[export] Hint Resolve keeps_complete keeps_newline : kp.

(** * Key maps *)

Definition kframe {K} (x y : K * ed) : Prop := frame (snd x) (snd y).
Lemma kframe_refl : forall {K}, refl (@kframe K).
Proof. intros K s. apply frame_refl. Qed.
Lemma kframe_trans : forall {K}, trans (@kframe K).
Proof. intros K a b c. apply frame_trans. Qed.

Lemma keeps_lift : forall {K A} (m : ME A), keeps frame m -> keeps (@kframe K) (lift m).
Proof.
  intros K A m H [k s]. unfold lift. specialize (H s). destruct (m s); exact H.
Qed.
Lemma keeps_getk : forall {K}, keeps (@kframe K) getk.
Proof. intros K [k s]. apply frame_refl. Qed.
Lemma keeps_modk : forall {K} (f : K -> K), keeps kframe (modk f).
Proof. intros K f [k s]. apply frame_refl. Qed.
Lemma keeps_gete : forall {K}, keeps (@kframe K) gete.
Proof. intros K [k s]. apply frame_refl. Qed.
Lemma keeps_mod_ed : forall {K} (f : ed -> ed), (forall s, frame s (f s)) -> keeps (@kframe K) (mod_ed f).
Proof. intros K f H [k s]. apply H. Qed.

Ltac kpk1 :=
  cbv beta zeta;
  match goal with
  | |- keeps _ (bind _ _) => apply (keeps_bind _ kframe_trans); [|intro]
  | |- keeps _ (ret _) => apply (keeps_ret _ kframe_refl)
  | |- keeps _ (fail _) => apply (keeps_fail _ kframe_refl)
  | |- keeps _ (pan _) => apply keeps_pan
  | |- keeps _ (liftr _) => apply (keeps_liftr _ kframe_refl)
  | |- keeps _ (when _ _) => apply (keeps_when _ kframe_refl)
  | |- keeps _ (lift _) => apply keeps_lift; kp
  | |- keeps _ getk => apply keeps_getk
  | |- keeps _ gete => apply keeps_gete
  | |- keeps _ (modk _) => apply keeps_modk
  | |- keeps _ (mod_ed _) => let s := fresh "s" in apply keeps_mod_ed; intro s;
        first [unfold skip_completions_hint, set_noeol_by; solve [frm] | idtac]
  | |- keeps _ (Nloop _ _) => apply (keeps_Nloop _ kframe_refl kframe_trans)
  | |- keeps _ (mfor _ _) => apply (keeps_mfor _ kframe_refl kframe_trans); intro
  | H : _ |- keeps _ _ => solve [apply H]
  | |- keeps _ (match ?x with _ => _ end) => destruct x
  | |- keeps _ _ => solve [auto with kp]
  end.
Ltac kpk := repeat kpk1.

Lemma keeps_handle_key : forall {K} (core : env -> key -> MK K unit) E k,
  (forall k, keeps kframe (core E k)) -> keeps kframe (handle_key core E k).
Proof.
  intros K core E k H. unfold handle_key. kpk.
  - intros [k0 s0]. destruct (cur_buf a); [apply frame_refl|exact I].
  - intros [k0 s0]. destruct (cursor_is_at_end_of_line a); [apply frame_refl|exact I].
Qed.

Lemma keeps_run_keys : forall {K} (core : env -> key -> MK K unit) keys,
  (forall E k, keeps kframe (core E k)) -> keeps kframe (run_keys core keys).
Proof.
  intros K core keys H. induction keys as [|[E k] keys IH]; cbn [run_keys]; [kpk|].
  apply (keeps_bind _ kframe_trans); [apply keeps_handle_key; intro; apply H|].
  intros [|]; kpk.
Qed.

Lemma keeps_emacs_core : forall E k, keeps kframe (emacs_core E k).
Proof.
  intros E k. unfold emacs_core, emacs_alt, emacs_ctrl, handle_last_arg_fetch, emacs_move_word. kpk.
Qed.

Lemma set_vi_mode_frame : forall m s, frame s (set_vi_mode m s).
Proof. intros m s. unfold set_vi_mode. destruct (pr_vi (ed_prompt s)); frm. Qed.

Lemma keeps_set_editor_mode : forall E, keeps kframe (set_editor_mode E).
Proof. intro E. unfold set_editor_mode. kpk; apply set_vi_mode_frame. Qed.
#[export] Hint Resolve keeps_set_editor_mode : kp.
Lemma keeps_buf_mut : forall f, keeps kframe (buf_mut f).
Proof. intro f. unfold buf_mut. kpk. Qed.
#[export] Hint Resolve keeps_buf_mut : kp.
Lemma keeps_smpl : forall E m, keeps kframe (set_mode_preserve_last E m).
Proof. intros E m. unfold set_mode_preserve_last. kpk. Qed.
#[export] Hint Resolve keeps_smpl : kp.
Lemma keeps_set_mode : forall E m, keeps kframe (set_mode E m).
Proof. intros E m. unfold set_mode. kpk. Qed.
Lemma keeps_pop_am : forall E m, keeps kframe (pop_mode_after_movement E m).
Proof. intros E m. unfold pop_mode_after_movement. kpk. Qed.
Lemma keeps_pop_mode : forall E, keeps kframe (pop_mode E).
Proof.
  intros E. unfold pop_mode. kpk. intros [k s]. unfold lift.
  pose proof (keeps_display E s) as H. destruct (display E s); [exact H|exact I|exact I|exact I].
Qed.
Lemma keeps_abort : forall E, keeps kframe (normal_mode_abort E).
Proof. intros E. unfold normal_mode_abort. kpk. Qed.
Lemma keeps_vi_common : forall E k, keeps kframe (vi_common E k).
Proof. intros E k. unfold vi_common. kpk. Qed.
Lemma keeps_insert_reset : keeps kframe insert_reset.
Proof. unfold insert_reset. kpk. Qed.
Lemma keeps_push_last : forall k, keeps kframe (push_last k).
Proof. intro k. unfold push_last. kpk. Qed.
Lemma keeps_push_cur : forall k, keeps kframe (push_cur k).
Proof. intro k. unfold push_cur. kpk. Qed.
Lemma keeps_mcr : keeps kframe mcr.
Proof. unfold mcr. kpk. Qed.
#[export] Hint Resolve keeps_set_mode keeps_pop_am keeps_pop_mode keeps_abort keeps_vi_common
  keeps_insert_reset keeps_push_last keeps_push_cur keeps_mcr : kp.
Lemma keeps_move_word : forall E a b n, keeps frame (vi_move_word E a b n).
Proof. intros. unfold vi_move_word. kp. Qed.
Lemma keeps_move_word_end : forall E a b n, keeps frame (vi_move_word_end E a b n).
Proof. intros. unfold vi_move_word_end. kp. Qed.
#[export] Hint Resolve keeps_move_word keeps_move_word_end : kp.
Lemma keeps_move_to_char : forall E k m, keeps kframe (vi_move_to_char E k m).
Proof. intros. unfold vi_move_to_char. kpk. Qed.
Lemma keeps_tilde : forall E, keeps kframe (tilde_step E).
Proof. intros. unfold tilde_step. kpk. Qed.
#[export] Hint Resolve keeps_move_to_char keeps_tilde : kp.

Lemma keeps_vi_repeat : forall rec, (forall k, keeps kframe (rec k)) -> keeps kframe (vi_repeat rec).
Proof. intros rec H. unfold vi_repeat. kpk. Qed.
Lemma keeps_vi_insert : forall rec E k, (forall k, keeps kframe (rec k)) -> keeps kframe (vi_insert rec E k).
Proof. intros rec E k H. unfold vi_insert. kpk. Qed.
Lemma keeps_vi_normal : forall rec E k, (forall k, keeps kframe (rec k)) -> keeps kframe (vi_normal rec E k).
Proof.
  intros rec E k H. pose proof (keeps_vi_repeat rec H) as Hr. unfold vi_normal. kpk.
Qed.
Lemma keeps_vi_replace : forall E k, keeps kframe (vi_replace E k).
Proof. intros. unfold vi_replace. kpk. Qed.
Lemma keeps_vi_doc : forall rec E k, (forall k, keeps kframe (rec k)) -> keeps kframe (vi_delete_or_change rec E k).
Proof.
  intros rec E k H. pose proof (keeps_vi_normal rec E k H) as Hn. unfold vi_delete_or_change. kpk.
Qed.
Lemma keeps_finally : forall m f, keeps kframe m -> keeps kframe (finally m f).
Proof.
  intros m f H x. unfold finally. specialize (H x). destruct (m x) as [a [v s]|e [v s]| |]; exact H.
Qed.
#[export] Hint Resolve keeps_finally : kp.
Lemma keeps_vi_g : forall E k, keeps kframe (vi_g E k).
Proof. intros. unfold vi_g. kpk. Qed.
#[export] Hint Resolve keeps_vi_replace keeps_vi_g : kp.

Lemma keeps_vi_core_fuel : forall f E k, keeps kframe (vi_core_fuel f E k).
Proof.
  induction f as [|f IH]; intros E k; [intro s; exact I|]. cbn [vi_core_fuel].
  pose proof (keeps_vi_normal _ E k (IH E)). pose proof (keeps_vi_insert _ E k (IH E)).
  pose proof (keeps_vi_doc _ E k (IH E)). kpk.
Qed.
Lemma keeps_vi_core : forall E k, keeps kframe (vi_core E k).
Proof. intros E k. unfold vi_core. pose proof keeps_vi_core_fuel. kpk. Qed.
