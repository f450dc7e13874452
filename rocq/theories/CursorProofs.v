(** The cursor stays inside the line (C21). *)
From Verif Require Import Base Utf8 BufferModel UtilModel HistoryModel EditorState EditorModel
  KeymapModel ViModel MonadLemmas EditorLemmas Lemmas BufferProofs.
Local Open Scope monad_scope.

(** The cursor is where a redraw leaves it. *)
Definition curok (s : ed) : Prop :=
  exists b, cur_buf s = Val b /\
    clamp_cursor (ed_noeol s) (num_chars b) (ed_cursor s) = ed_cursor s.

Lemma clamp_idem : forall e n c, clamp_cursor e n (clamp_cursor e n c) = clamp_cursor e n c.
Proof.
  intros e n c. unfold clamp_cursor.
  assert (Hc : forall x, (if n <? x then n else x) = Nat.min x n).
  { intro x. destruct (n <? x) eqn:E; [apply Nat.ltb_lt in E|apply Nat.ltb_ge in E]; lia. }
  rewrite !Hc.
  destruct e; cbn [andb].
  - destruct (Nat.min c n =? 0) eqn:E0; destruct (Nat.min c n =? n) eqn:E1; cbn [negb andb];
      destruct (Nat.min (Nat.min c n - 1) n =? 0) eqn:E2;
      destruct (Nat.min (Nat.min c n - 1) n =? n) eqn:E3;
      destruct (Nat.min (Nat.min c n) n =? 0) eqn:E4;
      destruct (Nat.min (Nat.min c n) n =? n) eqn:E5; cbn [negb andb];
      rewrite ?Nat.eqb_eq, ?Nat.eqb_neq in *; lia.
  - lia.
Qed.

Lemma clamp_le : forall e n c, clamp_cursor e n c = c -> c <= n.
Proof.
  intros e n c H. unfold clamp_cursor in H. destruct (n <? c) eqn:E.
  - apply Nat.ltb_lt in E. destruct (e && negb (n =? 0) && (n =? n)); lia.
  - apply Nat.ltb_ge in E. exact E.
Qed.

Lemma clamp_lt : forall n c, clamp_cursor true n c = c -> 0 < n -> c < n.
Proof.
  intros n c H Hn. pose proof (clamp_le _ _ _ H). destruct (Nat.eq_dec c n) as [->|]; [|lia].
  unfold clamp_cursor in H. rewrite Nat.ltb_irrefl, Nat.eqb_refl in H.
  destruct n; [lia|]. cbn in H. lia.
Qed.

Lemma clamp_false : forall n c, c <= n -> clamp_cursor false n c = c.
Proof. intros n c H. unfold clamp_cursor. cbn [andb]. apply Nat.ltb_ge in H. rewrite H. reflexivity. Qed.

Lemma clamp_weak : forall e n c, clamp_cursor e n c = c -> clamp_cursor false n c = c.
Proof. intros e n c H. apply clamp_false. exact (clamp_le _ _ _ H). Qed.

Lemma curok_shown : forall s g b tcl cb tty, cur_buf s = Val b ->
  curok (shown s g (clamp_cursor (ed_noeol s) (num_chars b) (ed_cursor s)) tcl cb tty).
Proof.
  intros s g b tcl cb tty H. exists b. split; [exact H|]. unfold shown. edsimp. apply clamp_idem.
Qed.

(** [restores m]: a normal return of [m] leaves the cursor right and the mode
    as it was, whatever the state before. *)
Definition anyE {S} : ioerr -> S -> Prop := fun _ _ => True.
Definition anyP : panic -> Prop := fun _ => True.
Definition restores {A} (m : ME A) : Prop :=
  forall s, wp m s (fun _ s' => curok s' /\ ed_noeol s' = ed_noeol s) anyE anyP.
(** The same for methods that may return without a redraw. *)
Definition preserves {A} (m : ME A) : Prop :=
  forall s, curok s -> wp m s (fun _ s' => curok s' /\ ed_noeol s' = ed_noeol s) anyE anyP.
(** Methods that leave [no_eol] alone. *)
Definition eolsame {A} (m : ME A) : Prop :=
  forall s, wp m s (fun _ s' => ed_noeol s' = ed_noeol s) anyE anyP.

Lemma restores_preserves : forall {A} (m : ME A), restores m -> preserves m.
Proof. intros A m H s _. apply H. Qed.
Lemma restores_eol : forall {A} (m : ME A), restores m -> eolsame m.
Proof. intros A m H s. eapply wp_mono; [apply H| | |]; auto. intros a s' [_ E]. exact E. Qed.

Lemma refreshed_noeol : forall s, ed_noeol (refreshed s) = ed_noeol s.
Proof. intro s. unfold refreshed. destruct (is_search s && ed_changed s); reflexivity. Qed.
Lemma refreshed_cursor : forall s, ed_cursor (refreshed s) = ed_cursor s.
Proof. intro s. unfold refreshed. destruct (is_search s && ed_changed s); reflexivity. Qed.

Lemma restores_display : forall E, restores (display E).
Proof.
  intros E s. apply wp_display.
  - intros g b tcl cb tty _ Hb.
    replace (ed_noeol s) with (ed_noeol (refreshed s)) by apply refreshed_noeol.
    replace (ed_cursor s) with (ed_cursor (refreshed s)) by apply refreshed_cursor.
    split; [apply curok_shown; exact Hb|reflexivity].
  - intros; exact I.
  - intros; exact I.
Qed.
Lemma restores_display_impl : forall E b, restores (display_impl E b).
Proof.
  intros E show s. apply wp_display_impl.
  - intros b tcl cb tty Hb. split; [apply curok_shown; exact Hb|reflexivity].
  - intros; exact I.
  - intros; exact I.
Qed.

Lemma restores_bind : forall {A B} (m : ME A) (k : A -> ME B),
  eolsame m -> (forall a, restores (k a)) -> restores (bind m k).
Proof.
  intros A B m k Hm Hk s. apply wp_bind. eapply wp_mono; [apply Hm| | |]; auto.
  intros a s' E. eapply wp_mono; [apply Hk| | |]; auto.
  intros a' s2 [H1 H2]. split; [exact H1|congruence].
Qed.
Lemma preserves_bind : forall {A B} (m : ME A) (k : A -> ME B),
  preserves m -> (forall a, preserves (k a)) -> preserves (bind m k).
Proof.
  intros A B m k Hm Hk s Hs. apply wp_bind. eapply wp_mono; [apply Hm; exact Hs| | |]; auto.
  intros a s' [E1 E]. eapply wp_mono; [apply Hk; exact E1| | |]; auto.
  intros a' s2 [H1 H2]. split; [exact H1|congruence].
Qed.
Lemma restores_then : forall {A B} (m : ME A) (k : A -> ME B),
  restores m -> (forall a, preserves (k a)) -> restores (bind m k).
Proof.
  intros A B m k Hm Hk s. apply wp_bind. eapply wp_mono; [apply Hm| | |]; auto.
  intros a s' [E1 E]. eapply wp_mono; [apply Hk; exact E1| | |]; auto.
  intros a' s2 [H1 H2]. split; [exact H1|congruence].
Qed.
Lemma eol_bind : forall {A B} (m : ME A) (k : A -> ME B),
  eolsame m -> (forall a, eolsame (k a)) -> eolsame (bind m k).
Proof.
  intros A B m k Hm Hk s. apply wp_bind. eapply wp_mono; [apply Hm| | |]; auto.
  intros a s' E. eapply wp_mono; [apply Hk| | |]; auto. intros; congruence.
Qed.

Lemma eol_ret : forall {A} (a : A), eolsame (ret a).
Proof. intros A a s. reflexivity. Qed.
Lemma eol_get : eolsame get.
Proof. intro s. reflexivity. Qed.
Lemma eol_gets : forall {A} (f : ed -> A), eolsame (gets f).
Proof. intros A f s. reflexivity. Qed.
Lemma eol_liftr : forall {A} (r : res A), eolsame (liftr r).
Proof. intros A r s. apply wp_liftr; intros; [reflexivity|exact I]. Qed.
Lemma eol_modify : forall f, (forall s, ed_noeol (f s) = ed_noeol s) -> eolsame (modify f).
Proof. intros f H s. apply H. Qed.
Lemma eol_when : forall b m, eolsame m -> eolsame (when b m).
Proof. intros b m H. destruct b; [exact H|apply eol_ret]. Qed.
Lemma eol_get_cur : eolsame get_cur.
Proof. intro s. unfold wp, get_cur. destruct (cur_buf s); [reflexivity|exact I]. Qed.
Lemma eol_with_cur_mut : forall {A} (f : buffer -> res (A * buffer)), eolsame (with_cur_mut f).
Proof.
  intros A f. apply eol_bind.
  - intro s. unfold wp, cur_prep. edsimp. destruct (ed_loc s); [|reflexivity].
    destruct (ed_hvalid s); [reflexivity|]. destruct (hist_get _ _); [|exact I].
    destruct (copy_buffer _ _); [reflexivity|exact I].
  - intros u s. unfold wp, cur_upd. destruct (ed_loc s);
      [destruct (f (ed_hist s)) as [[a b]|]|destruct (f (ed_new s)) as [[a b]|]]; try exact I; reflexivity.
Qed.
Lemma eol_tty_write : forall E t, eolsame (tty_write E t).
Proof. intros E t s. unfold wp, tty_write. destruct (e_wok E); [reflexivity|exact I]. Qed.

Lemma pres_ret : forall {A} (a : A), preserves (ret a).
Proof. intros A a s H. split; [exact H|reflexivity]. Qed.
Lemma pres_pan : forall {A} p, preserves (@pan ed A p).
Proof. intros A p s H. exact I. Qed.
Lemma pres_fail : forall {A} p, preserves (@fail ed A p).
Proof. intros A p s H. exact I. Qed.
Lemma pres_get : preserves get.
Proof. intros s H. split; [exact H|reflexivity]. Qed.
Lemma pres_gets : forall {A} (f : ed -> A), preserves (gets f).
Proof. intros A f s H. split; [exact H|reflexivity]. Qed.
Lemma pres_liftr : forall {A} (r : res A), preserves (liftr r).
Proof. intros A r s H. apply wp_liftr; intros; [split; [exact H|reflexivity]|exact I]. Qed.
Lemma pres_get_cur : preserves get_cur.
Proof. intros s H. unfold wp, get_cur. destruct (cur_buf s); [split; [exact H|reflexivity]|exact I]. Qed.
Lemma pres_when : forall b m, preserves m -> preserves (when b m).
Proof. intros b m H. destruct b; [exact H|apply pres_ret]. Qed.
Lemma pres_modify : forall f, (forall s, cur_buf (f s) = cur_buf s /\ ed_noeol (f s) = ed_noeol s /\
  ed_cursor (f s) = ed_cursor s) -> preserves (modify f).
Proof.
  intros f H s [b [H1 H2]]. destruct (H s) as [K1 [K2 K3]]. split; [|exact K2].
  exists b. rewrite K1, K2, K3. split; assumption.
Qed.
(** A change of the current buffer that keeps its text. *)
Lemma copy_data : forall b o b', copy_buffer b o = Val b' -> data b' = data o.
Proof.
  intros b o b' H. unfold copy_buffer in H.
  pose proof (remove_app b [] (data b) []) as Hr. cbn [length Nat.add app] in Hr.
  rewrite Hr in H by (rewrite app_nil_r; reflexivity). cbn [rbind] in H.
  match type of H with buf_insert ?b1 _ _ = _ => pose proof (insert_app b1 [] [] (data o) eq_refl) as Hi end.
  cbn [length app] in Hi. rewrite Hi in H. injection H as <-. cbn. apply app_nil_r.
Qed.
Lemma pres_text : forall {A} (f : buffer -> res (A * buffer)),
  (forall b a b', f b = Val (a, b') -> data b' = data b) -> preserves (with_cur_mut f).
Proof.
  intros A f Hf s [b [H1 H2]]. unfold with_cur_mut. apply wp_bind. unfold wp, cur_prep, cur_buf in *. edsimp.
  destruct (ed_loc s) as [i|] eqn:El.
  - destruct (ed_hvalid s) eqn:Ev.
    + unfold cur_upd. edsimp. rewrite El. injection H1 as Hb.
      destruct (f (ed_hist s)) as [[a b']|] eqn:Ef; [|exact I]. split; [|reflexivity].
      exists b'. unfold cur_buf. edsimp. rewrite El, Ev. split; [reflexivity|].
      unfold num_chars in *. rewrite (Hf _ _ _ Ef), Hb. exact H2.
    + rewrite H1. destruct (copy_buffer (ed_hist s) b) as [hb|] eqn:Ec; [|exact I].
      unfold cur_upd. edsimp. rewrite El.
      destruct (f hb) as [[a b']|] eqn:Ef; [|exact I]. split; [|reflexivity].
      exists b'. unfold cur_buf. edsimp. rewrite El. split; [reflexivity|].
      unfold num_chars in *. rewrite (Hf _ _ _ Ef), (copy_data _ _ _ Ec). exact H2.
  - unfold cur_upd. edsimp. rewrite El. injection H1 as Hb.
    destruct (f (ed_new s)) as [[a b']|] eqn:Ef; [|exact I]. split; [|reflexivity].
    exists b'. unfold cur_buf. edsimp. rewrite El. split; [reflexivity|].
    unfold num_chars in *. rewrite (Hf _ _ _ Ef), Hb. exact H2.
Qed.

Lemma freshen_noeol : forall s, ed_noeol (freshen_history s) = ed_noeol s.
Proof. intro s. unfold freshen_history. destruct (_ && _); reflexivity. Qed.

#[export] Hint Resolve restores_display restores_display_impl eol_ret eol_get eol_gets eol_liftr
  eol_get_cur eol_with_cur_mut eol_tty_write pres_ret pres_pan pres_fail pres_get pres_gets pres_liftr
  pres_get_cur : cur.

Ltac eolm := let s := fresh "s" in intro s; cbv beta;
  first [reflexivity | unfold clear_search, skip_completions_hint; reflexivity
        | rewrite freshen_noeol; reflexivity | idtac].
Ltac curm := let s := fresh "s" in intro s; cbv beta;
  first [solve [repeat split] | solve [unfold skip_completions_hint, clear_search; repeat split] | idtac].
Ltac eol1 :=
  cbv beta zeta;
  match goal with
  | |- eolsame (bind _ _) => apply eol_bind; [|intro]
  | |- eolsame (modify _) => apply eol_modify; eolm
  | |- eolsame (when _ _) => apply eol_when
  | |- eolsame (match ?x with _ => _ end) => destruct x
  | |- eolsame _ => solve [auto with cur | apply restores_eol; auto with cur]
  end.
Ltac cur1 :=
  cbv beta zeta;
  match goal with
  | |- restores (match ?x with _ => _ end) => destruct x
  | |- restores _ => solve [auto with cur]
  | |- restores (bind _ _) => apply restores_bind; [solve [repeat eol1]|intro]
  | |- preserves (match ?x with _ => _ end) => destruct x
  | |- preserves _ => solve [auto with cur | apply restores_preserves; auto with cur]
  | |- preserves (modify _) => apply pres_modify; solve [curm]
  | |- preserves (when _ _) => apply pres_when
  | |- preserves (bind _ _) => first [ apply restores_preserves, restores_bind; [solve [repeat eol1]|intro; solve [repeat cur1]]
                                     | apply preserves_bind; [|intro] ]
  end.
Ltac cur := repeat cur1.

Lemma rs_move_end : forall E, restores (move_cursor_to_end_of_line E).
Proof. intro E. unfold move_cursor_to_end_of_line. cur. Qed.
Lemma rs_move_start : forall E, restores (move_cursor_to_start_of_line E).
Proof. intro E. unfold move_cursor_to_start_of_line. cur. Qed.
Lemma rs_move_to : forall E n, restores (move_cursor_to E n).
Proof. intros E n. unfold move_cursor_to. cur. Qed.
Lemma rs_move_left : forall E n, restores (move_cursor_left E n).
Proof. intros E n. unfold move_cursor_left. cur. Qed.
Lemma rs_move_right : forall E n, restores (move_cursor_right E n).
Proof. intros E n. unfold move_cursor_right. cur. Qed.
Lemma rs_insert : forall E t, restores (insert_chars_after_cursor E t).
Proof. intros E t. unfold insert_chars_after_cursor. cur. Qed.
Lemma rs_insert1 : forall E c, restores (insert_after_cursor E c).
Proof. intros E c. apply rs_insert. Qed.
Lemma rs_insert_str : forall E c, restores (insert_str_after_cursor E c).
Proof. intros E c. apply rs_insert. Qed.
Lemma rs_del_before : forall E, restores (delete_before_cursor E).
Proof. intros E. unfold delete_before_cursor. cur. Qed.
Lemma rs_del_after : forall E, restores (delete_after_cursor E).
Proof. intros E. unfold delete_after_cursor. cur. Qed.
Lemma rs_del_all_before : forall E, restores (delete_all_before_cursor E).
Proof. intros E. unfold delete_all_before_cursor. cur. Qed.
Lemma rs_del_all_after : forall E, restores (delete_all_after_cursor E).
Proof. intros E. unfold delete_all_after_cursor. cur. Qed.
Lemma rs_del_until : forall E n, restores (delete_until E n).
Proof. intros E n. unfold delete_until. cur. Qed.
Lemma rs_del_until_inc : forall E n, restores (delete_until_inclusive E n).
Proof. intros E n. unfold delete_until_inclusive. cur. Qed.
Lemma rs_del_word : forall E b, restores (delete_word_before_cursor E b).
Proof. intros E b. unfold delete_word_before_cursor. cur. Qed.
Lemma rs_clear : forall E, restores (clear E).
Proof. intros E. unfold clear. cur. Qed.
#[export] Hint Resolve rs_move_end rs_move_start rs_move_to rs_move_left rs_move_right
  rs_insert rs_insert1 rs_insert_str rs_del_before rs_del_after rs_del_all_before
  rs_del_all_after rs_del_until rs_del_until_inc rs_del_word rs_clear : cur.

Lemma rs_undo_like : forall E f, restores (undo_like E f).
Proof.
  intros E f. unfold undo_like. apply restores_bind; [solve [repeat eol1]|]. intro did.
  apply restores_then; [cur|]. intro. apply pres_ret.
Qed.
#[export] Hint Resolve rs_undo_like : cur.
Lemma rs_undo : forall E, restores (ed_undo E).
Proof. intro E. unfold ed_undo. cur. Qed.
Lemma rs_redo : forall E, restores (ed_redo E).
Proof. intro E. unfold ed_redo. cur. Qed.
Lemma rs_revert : forall E, restores (ed_revert E).
Proof. intro E. unfold ed_revert. cur. Qed.
Lemma rs_search : forall E b, restores (search E b).
Proof.
  intros E b. unfold search. apply restores_bind; [|intro; cur].
  apply eol_modify. intro s. destruct (negb (is_search s)).
  - unfold refresh_search. edsimp. apply freshen_noeol.
  - unfold search_step. destruct (ed_subset s); [reflexivity|]. destruct (ed_subloc s); reflexivity.
Qed.
#[export] Hint Resolve rs_undo rs_redo rs_revert rs_search : cur.
Lemma rs_move_up : forall E, restores (move_up E).
Proof. intros E. unfold move_up. cur. Qed.
Lemma rs_move_down : forall E, restores (move_down E).
Proof. intros E. unfold move_down. cur. Qed.
Lemma rs_hist_start : forall E, restores (move_to_start_of_history E).
Proof. intros E. unfold move_to_start_of_history. cur. Qed.
Lemma rs_hist_end : forall E, restores (move_to_end_of_history E).
Proof. intros E. unfold move_to_end_of_history. cur. Qed.
Lemma rs_accept : forall E, restores (accept_autosuggestion E).
Proof. intros E. unfold accept_autosuggestion. cur. Qed.
#[export] Hint Resolve rs_move_up rs_move_down rs_hist_start rs_hist_end rs_accept : cur.

Lemma ps_tty_write : forall E t, preserves (tty_write E t).
Proof.
  intros E t s [b H]. unfold wp, tty_write. destruct (e_wok E); [|exact I].
  split; [exists b; exact H|reflexivity].
Qed.
#[export] Hint Resolve ps_tty_write : cur.

Lemma ps_complete : forall E, preserves (complete E).
Proof.
  intros E. unfold complete. apply preserves_bind; [cur|]. intro s.
  destruct (ed_hint s) as [[comps ii]|].
  - cur.
  - apply preserves_bind; [cur|]. intro wr. apply preserves_bind.
    + apply pres_text. intros b a b' H. destruct wr as [[st en]|].
      * destruct (buf_range b st en); [|discriminate]. injection H as _ <-. reflexivity.
      * injection H as _ <-. reflexivity.
    + intro word. cbv zeta. destruct (dedup_adj (sort_texts (e_complete E word))) as [|c [|c2 l]]; [cur|cur|].
      destruct (find_longest_common_prefix (c :: c2 :: l)) as [p|]; [|cur].
      destruct ((blen word <? blen p) && prefixb word p); cur.
Qed.
Lemma ps_newline : forall E, preserves (handle_newline E).
Proof.
  intros E. unfold handle_newline.
  assert (Hfin : forall n, restores (modify (set_cursor n) ;;; display_impl E false ;;;
                   tty_write E [TCRLF] ;;; modify (set_hint None) ;;; ret true)).
  { intro n. apply restores_bind; [solve [repeat eol1]|]. intro. apply restores_then; [cur|]. intro. cur. }
  repeat (first [apply restores_preserves, Hfin | cur1]).
Qed.
#[export] Hint Resolve ps_complete ps_newline : cur.

(** * Key maps in general *)

(** [I] relates the key map's state to [no_eol]. *)
Definition kpres {K A} (m : MK K A) (I : K * ed -> Prop) : Prop :=
  forall x, I x -> wp m x (fun _ y => I y) anyE anyP.

Lemma wp_lift : forall {K A} (m : ME A) (k : K) s Q X P,
  wp m s (fun a s' => Q a (k, s')) (fun e s' => X e (k, s')) P -> wp (lift m) (k, s) Q X P.
Proof. intros K A m k s Q X P H. unfold wp, lift in *. destruct (m s); exact H. Qed.

Definition eolI (x : emacs * ed) : Prop := curok (snd x) /\ ed_noeol (snd x) = false.

Lemma kpres_bind : forall {K A B} (m : MK K A) (k : A -> MK K B) I,
  kpres m I -> (forall a, kpres (k a) I) -> kpres (bind m k) I.
Proof.
  intros K A B m k I Hm Hk x Hx. apply wp_bind. eapply wp_mono; [apply Hm; exact Hx| | |]; auto.
Qed.
Lemma kpres_ret : forall {K A} (a : A) (I : K * ed -> Prop), kpres (ret a) I.
Proof. intros K A a I x Hx. exact Hx. Qed.
Lemma kpres_fail : forall {K A} e (I : K * ed -> Prop), kpres (@fail (K * ed) A e) I.
Proof. intros K A e I0 x Hx. exact I. Qed.
Lemma kpres_pan : forall {K A} p (I : K * ed -> Prop), kpres (@pan (K * ed) A p) I.
Proof. intros K A e I0 x Hx. exact I. Qed.
Lemma kpres_liftr : forall {K A} (r : res A) (I : K * ed -> Prop), kpres (liftr r) I.
Proof. intros K A r I0 x Hx. apply wp_liftr; intros; [exact Hx|exact I]. Qed.
Lemma kpres_getk : forall {K} (I : K * ed -> Prop), kpres getk I.
Proof. intros K I0 [k s] Hx. exact Hx. Qed.
Lemma kpres_gete : forall {K} (I : K * ed -> Prop), kpres gete I.
Proof. intros K I0 [k s] Hx. exact Hx. Qed.
Lemma kpres_when : forall {K} b (m : MK K unit) I, kpres m I -> kpres (when b m) I.
Proof. intros K b m I0 H. destruct b; [exact H|apply kpres_ret]. Qed.
Lemma kpres_mfor : forall {K A} (body : A -> MK K unit) l I, (forall x, kpres (body x) I) -> kpres (mfor l body) I.
Proof.
  intros K A body l I0 H. induction l as [|y l IH]; cbn [mfor]; [apply kpres_ret|].
  apply kpres_bind; [apply H|intro; exact IH].
Qed.
Lemma kpres_Nloop : forall {K} (body : MK K bool) n I, kpres body I -> kpres (Nloop n body) I.
Proof. intros K body n I0 H x Hx. apply wp_Nloop; [exact H|exact Hx]. Qed.

(** An invariant that only looks at the cursor, the line, [no_eol] and the key
    map's state. *)
Definition local {K} (I : K * ed -> Prop) : Prop :=
  (forall k s, I (k, s) -> curok s) /\
  (forall k s s', I (k, s) -> curok s' -> ed_noeol s' = ed_noeol s -> I (k, s')).

Lemma kpres_lift : forall {K A} (m : ME A) (I : K * ed -> Prop), local I -> preserves m -> kpres (lift m) I.
Proof.
  intros K A m I0 [L1 L2] Hm [k s] Hx. apply wp_lift. eapply wp_mono; [apply Hm; exact (L1 _ _ Hx)| | |]; auto.
  intros a s' [H1 H2]. exact (L2 _ _ _ Hx H1 H2).
Qed.

Lemma kpres_handle_key : forall {K} (core : env -> key -> MK K unit) (I : K * ed -> Prop) E k,
  local I -> (forall k, kpres (core E k) I) -> kpres (handle_key core E k) I.
Proof.
  intros K core I0 E k HL Hc.
  assert (Hend : forall d : bool, kpres (if e_wok E then ret d else fail EOther) I0).
  { intro d. destruct (e_wok E); [apply kpres_ret|apply kpres_fail]. }
  assert (Hoth : forall k, kpres (core E k ;;; mod_ed skip_completions_hint ;;; ret false) I0).
  { intro k0. apply kpres_bind; [apply Hc|]. intro. apply kpres_bind; [|intro; apply kpres_ret].
    intros [kk s] Hx. destruct HL as [L1 L2]. apply (L2 kk s); [exact Hx| |reflexivity].
    exact (L1 _ _ Hx). }
  assert (Hl : forall A (m : ME A), preserves m -> kpres (lift m) I0).
  { intros A m Hm. apply kpres_lift; assumption. }
  unfold handle_key. apply kpres_bind; [apply kpres_gete|]. intro s.
  apply kpres_bind.
  { intros x Hx. unfold wp. destruct (cur_buf s); [exact Hx|exact I]. }
  intro emp. cbv zeta. apply kpres_bind; [|intro d; apply Hend].
  repeat match goal with
  | |- kpres (match ?x with _ => _ end) _ => destruct x
  | |- kpres (bind (lift _) _) _ => apply kpres_bind; [apply Hl; auto with cur|intro]
  | |- kpres (lift _) _ => apply Hl; auto with cur
  | |- kpres (ret _) _ => apply kpres_ret
  | |- kpres (fail _) _ => apply kpres_fail
  | |- _ => first [solve [apply Hl; auto with cur; apply restores_preserves; auto with cur] | solve [apply Hoth]]
  end.
  all: try (apply restores_preserves; auto with cur).
  apply kpres_bind.
  - intros x Hx. unfold wp. destruct (cursor_is_at_end_of_line s); [exact Hx|exact I].
  - intros [|]; [|apply Hoth]. apply kpres_bind; [apply Hl, restores_preserves; auto with cur|]. intro. apply kpres_ret.
Qed.

Lemma kpres_run_keys : forall {K} (core : env -> key -> MK K unit) (I : K * ed -> Prop) keys,
  local I -> (forall E k, kpres (core E k) I) -> kpres (run_keys core keys) I.
Proof.
  intros K core I0 keys HL Hc. induction keys as [|[E k] keys IH]; cbn [run_keys]; [apply kpres_ret|].
  apply kpres_bind; [apply kpres_handle_key; auto|]. intros [|]; [apply kpres_ret|exact IH].
Qed.

(** A new editor has its cursor in the line. *)
Lemma editor_new_curok : forall E p f ib h w cb ttys s,
  editor_new E p f ib h w cb ttys = ORet tt s -> curok s /\ ed_noeol s = false.
Proof.
  intros E p f ib h w cb ttys s H. unfold editor_new in H.
  destruct (negb (e_wok E)); [discriminate|].
  match type of H with ?m ?s0 = _ =>
    assert (Hw : wp m s0 (fun _ s' => curok s' /\ ed_noeol s' = ed_noeol s0) anyE anyP) end.
  { apply restores_bind; [apply eol_liftr|]. intro n.
    apply restores_bind; [apply eol_tty_write|]. intro.
    apply restores_bind; [|intro; apply restores_display].
    apply eol_when. apply restores_eol. apply rs_move_end. }
  exact (wp_ret_of _ _ _ _ _ _ _ Hw H).
Qed.

(** * Emacs *)

Lemma eolI_local : local eolI.
Proof.
  split.
  - intros k s [H _]. exact H.
  - intros k s s' [_ H] H1 H2. split; [exact H1|]. cbn [snd] in *. congruence.
Qed.

Lemma ps_move_word : forall E b, preserves (emacs_move_word E b).
Proof. intros E b. unfold emacs_move_word. cur. Qed.
#[export] Hint Resolve ps_move_word : cur.
Lemma ps_emacs_ctrl : forall E c, preserves (emacs_ctrl E c).
Proof.
  intros E c. unfold emacs_ctrl.
  repeat match goal with
  | |- preserves (if ?b then _ else _) => destruct b; [cur|]
  end. cur.
Qed.

Lemma kpres_emacs_core : forall E k, kpres (emacs_core E k) eolI.
Proof.
  intros E k. unfold emacs_core. pose proof eolI_local as HL.
  assert (Hm : forall f, kpres (modk f) eolI) by (intros f [kk s] Hx; exact Hx).
  assert (Hr : forall A (m : ME A), restores m -> kpres (lift m) eolI).
  { intros A m H. apply kpres_lift; [exact HL|]. apply restores_preserves. exact H. }
  assert (Hp : forall A (m : ME A), preserves m -> kpres (lift m) eolI).
  { intros A m H. apply kpres_lift; [exact HL|]. exact H. }
  apply kpres_bind.
  { destruct k; try apply Hm. destruct (is_char c "."); [apply kpres_ret|apply Hm]. }
  intro. destruct k; try (apply Hr; auto with cur; fail); try (apply kpres_ret).
  - unfold emacs_alt.
    repeat match goal with
    | |- kpres (if ?b then _ else _) _ => destruct b
    | |- kpres (ret _) _ => apply kpres_ret
    | |- kpres (lift _) _ => first [apply Hr; solve [auto with cur] | apply Hp; solve [auto with cur]]
    | |- kpres (bind (lift _) _) _ => apply kpres_bind; [apply Hr; solve [auto with cur]|intro]
    end.
    unfold handle_last_arg_fetch.
    repeat match goal with
    | |- kpres (match ?b with _ => _ end) _ => destruct b
    | |- kpres (ret _) _ => apply kpres_ret
    | |- kpres (liftr _) _ => apply kpres_liftr
    | |- kpres gete _ => apply kpres_gete
    | |- kpres getk _ => apply kpres_getk
    | |- kpres (modk _) _ => apply Hm
    | |- kpres (lift _) _ => first [apply Hr; solve [auto with cur] | apply Hp; solve [auto with cur]]
    | |- kpres (bind _ _) _ => apply kpres_bind; [|intro]
    end.
  - apply Hp, ps_emacs_ctrl.
Qed.

Lemma emacs_cursor : forall E p f ib h w cb ttys s keys d k s',
  editor_new E p f ib h w cb ttys = ORet tt s ->
  run_keys emacs_core keys (emacs_new, s) = ORet d (k, s') ->
  exists b, cur_buf s' = Val b /\ ed_cursor s' <= num_chars b.
Proof.
  intros E p f ib h w cb ttys s keys d k s' H0 H1. apply editor_new_curok in H0.
  pose proof (kpres_run_keys emacs_core eolI keys eolI_local kpres_emacs_core (emacs_new, s) H0) as H.
  pose proof (wp_ret_of _ _ _ _ _ _ _ H H1) as [[b [Hb Hc]] _]. exists b. split; [exact Hb|].
  exact (clamp_le _ _ _ Hc).
Qed.

(** * Vi *)

Definition viI (x : vi * ed) : Prop :=
  curok (snd x) /\ ed_noeol (snd x) = is_normal (vmode_of (fst x)).
(** The same without the cursor; a redraw restores it. *)
Definition viW (x : vi * ed) : Prop := ed_noeol (snd x) = is_normal (vmode_of (fst x)).

Lemma viI_local : local viI.
Proof.
  split.
  - intros k s [H _]. exact H.
  - intros k s s' [_ H] H1 H2. split; [exact H1|]. cbn [fst snd] in *. congruence.
Qed.

(** Changes of the Vi state that keep the mode stack *)
Lemma kpres_modk_vi : forall f, (forall v, v_stack (f v) = v_stack v) -> kpres (modk f) viI.
Proof.
  intros f H [v s] [H1 H2]. split; [exact H1|]. cbn [fst snd] in *. unfold vmode_of. rewrite H. exact H2.
Qed.

Lemma curok_noeol_false : forall s, curok s -> curok (set_noeol false s).
Proof. intros s [b [H1 H2]]. exists b. split; [exact H1|]. edsimp. exact (clamp_weak _ _ _ H2). Qed.

Lemma curok_vi_mode : forall m s, curok s -> curok (set_vi_mode m s).
Proof. intros m s [b [H1 H2]]. unfold set_vi_mode. destruct (pr_vi (ed_prompt s)); exists b; split; assumption. Qed.
Lemma noeol_vi_mode : forall m s, ed_noeol (set_vi_mode m s) = ed_noeol s.
Proof. intros m s. unfold set_vi_mode. destruct (pr_vi (ed_prompt s)); reflexivity. Qed.

(** [set_editor_mode] redraws in normal mode, so it restores the invariant
    from the weak one when the cursor may only be wrong because of [no_eol]. *)
Lemma wp_set_editor_mode : forall E v s,
  ed_noeol s = is_normal (vmode_of v) ->
  (vmode_of v <> MNormal -> curok s) ->
  wp (set_editor_mode E) (v, s) (fun _ y => viI y /\ fst y = v) anyE anyP.
Proof.
  intros E v s Hn Hc. unfold set_editor_mode. apply wp_bind. unfold getk, wp at 1.
  assert (Hd : forall m, wp (mod_ed (set_vi_mode m) ;;; lift (display E)) (v, s)
                            (fun _ y => viI y /\ fst y = v) anyE anyP).
  { intro m. apply wp_bind. unfold mod_ed, wp at 1. apply wp_lift.
    eapply wp_mono; [apply restores_display| | |]; auto.
    intros a s' [H1 H2]. split; [|reflexivity]. split; [exact H1|]. cbn [fst snd]. rewrite H2, noeol_vi_mode. exact Hn. }
  destruct (vmode_of v) eqn:Em; try apply Hd; (apply wp_ret; split; [|reflexivity]; split; cbn [fst snd];
    [apply Hc; discriminate|rewrite Em; exact Hn]).
Qed.

Lemma ps_start_group : preserves (with_cur_mut (pure_op start_undo_group)).
Proof. apply pres_text. intros b a b' H. injection H as _ <-. reflexivity. Qed.
Lemma ps_end_group : preserves (with_cur_mut (pure_op end_undo_group)).
Proof. apply pres_text. intros b a b' H. injection H as _ <-. reflexivity. Qed.
#[export] Hint Resolve ps_start_group ps_end_group : cur.

Lemma kp_lift_vi : forall A (m : ME A), preserves m -> kpres (lift m) viI.
Proof. intros A m H. apply kpres_lift; [exact viI_local|exact H]. Qed.
Lemma kp_lift_vi_r : forall A (m : ME A), restores m -> kpres (lift m) viI.
Proof. intros A m H. apply kp_lift_vi, restores_preserves. exact H. Qed.
Lemma kp_start_group : kpres (buf_mut start_undo_group) viI.
Proof. apply kp_lift_vi. apply ps_start_group. Qed.
Lemma kp_end_group : kpres (buf_mut end_undo_group) viI.
Proof. apply kp_lift_vi. apply ps_end_group. Qed.

Lemma kp_smpl : forall E m, kpres (set_mode_preserve_last E m) viI.
Proof.
  intros E m [v s] [H1 H2]. unfold set_mode_preserve_last.
  apply wp_bind. unfold mod_ed, wp at 1. apply wp_bind. unfold modk, wp at 1.
  cbn [fst snd] in *.
  assert (Hc : m <> MNormal -> curok (set_noeol (is_normal m) s)).
  { intro Hm. replace (is_normal m) with false.
    - apply curok_noeol_false. exact H1.
    - destruct m; try reflexivity. exfalso. apply Hm. reflexivity. }
  apply wp_bind. eapply wp_mono; [apply wp_set_editor_mode; [reflexivity|exact Hc]| | |]; auto.
  intros u [v' s'] [HI _]. destruct (is_insert m || is_tilde m); cbn [when]; [apply kp_start_group; exact HI|exact HI].
Qed.

Lemma kp_set_mode : forall E m, kpres (set_mode E m) viI.
Proof.
  intros E m. unfold set_mode. apply kpres_bind; [apply kp_smpl|]. intro.
  apply kpres_when. apply kpres_modk_vi. reflexivity.
Qed.

Lemma vpop_snd : forall v m v', vpop v = (m, v') -> v_stack v' = tl (v_stack v) /\ m = vmode_of v.
Proof.
  intros v m v' H. unfold vpop, vmode_of in *. destruct (v_stack v) eqn:E; injection H as <- <-.
  - rewrite E. split; reflexivity.
  - split; reflexivity.
Qed.

Lemma kp_pop_mode : forall E, kpres (pop_mode E) viI.
Proof.
  intros E [v s] [H1 H2]. cbn [fst snd] in *. unfold pop_mode. apply wp_bind. unfold getk, wp at 1.
  destruct (vpop v) as [last v1] eqn:Ep.
  apply wp_bind. unfold modk, wp at 1. apply wp_bind. unfold mod_ed, wp at 1.
  set (v2 := vset_reset (negb (is_insert (vmode_of v1))) v1).
  assert (Em : vmode_of v2 = vmode_of v1) by reflexivity.
  set (s1 := set_noeol (is_normal (vmode_of v1)) s).
  (* the cursor is right unless the new mode is normal *)
  assert (Hs1 : vmode_of v1 <> MNormal -> curok s1).
  { intro Hm. unfold s1. replace (is_normal (vmode_of v1)) with false.
    - apply curok_noeol_false. exact H1.
    - destruct (vmode_of v1); try reflexivity. exfalso. apply Hm. reflexivity. }
  apply wp_bind.
  apply (wp_mono _ _ (fun _ y => fst y = v2 /\ ed_noeol (snd y) = is_normal (vmode_of v1) /\
                       (vmode_of v1 <> MNormal -> curok (snd y))) _ anyE _ anyP); auto.
  { apply wp_when; intro; [|repeat split; exact Hs1].
    unfold buf_mut. apply wp_lift.
    destruct (is_normal (vmode_of v1)) eqn:En.
    - eapply wp_mono; [apply eol_with_cur_mut| | |]; auto. intros u s' Hs'. cbn [fst snd].
      split; [reflexivity|]. split; [rewrite Hs'; reflexivity|]. intro Hm. destruct (vmode_of v1); try discriminate. congruence.
    - eapply wp_mono; [apply ps_end_group; apply Hs1; intro Hm; rewrite Hm in En; discriminate| | |]; auto.
      intros u s' [K1 K2]. cbn [fst snd]. split; [reflexivity|]. split; [rewrite K2; reflexivity|]. auto. }
  intros u [v3 s3] [Hv3 [Hn3 Hc3]]. cbn [fst snd] in *. subst v3.
  apply wp_bind.
  apply (wp_mono _ _ (fun _ y => fst y = v2 /\ ed_noeol (snd y) = is_normal (vmode_of v1) /\
                       (vmode_of v1 <> MNormal -> curok (snd y))) _ anyE _ anyP); auto.
  { apply wp_when; intro; [|repeat split; assumption]. unfold wp, lift.
    pose proof (restores_display E s3) as Hd. unfold wp in Hd. destruct (display E s3); try exact I.
    destruct Hd as [K1 K2]. cbn [fst snd]. split; [reflexivity|]. split; [congruence|]. auto. }
  intros u' [v4 s4] [Hv4 [Hn4 Hc4]]. cbn [fst snd] in *. subst v4.
  eapply wp_mono; [apply wp_set_editor_mode; [exact Hn4|exact Hc4]| | |]; auto.
  intros x y [Hy _]. exact Hy.
Qed.

Lemma kp_abort : forall E, kpres (normal_mode_abort E) viI.
Proof.
  intros E [v s] [H1 H2]. unfold normal_mode_abort. apply wp_bind. unfold modk, wp at 1.
  apply wp_bind. unfold mod_ed, wp at 1.
  eapply wp_mono; [apply wp_set_editor_mode; [reflexivity|]| | |]; auto.
  - intro Hm. exfalso. apply Hm. reflexivity.
  - intros x y [Hy _]. exact Hy.
Qed.

Lemma kp_pop_am : forall E mt, kpres (pop_mode_after_movement E mt) viI.
Proof.
  intros E mt [v s] [H1 H2]. cbn [fst snd] in *. unfold pop_mode_after_movement. apply wp_bind. unfold getk, wp at 1.
  destruct (vpop v) as [original v1] eqn:Ep.
  destruct (match vmode_of v1 with MDelete _ => vpop v1 | _ => (original, v1) end) as [last v2] eqn:El.
  apply wp_bind. unfold modk at 1, wp at 1. apply wp_bind. unfold mod_ed, wp at 1.
  set (v3 := vset_reset (negb (is_insert (vmode_of v2))) v2).
  set (s1 := set_noeol (is_normal (vmode_of v2)) s).
  assert (Hs1 : vmode_of v2 <> MNormal -> curok s1).
  { intro Hm. unfold s1. replace (is_normal (vmode_of v2)) with false.
    - apply curok_noeol_false. exact H1.
    - destruct (vmode_of v2); try reflexivity. exfalso. apply Hm. reflexivity. }
  set (J := fun (_ : unit) (y : vi * ed) => v_stack (fst y) = v_stack v2 /\
            ed_noeol (snd y) = is_normal (vmode_of v2) /\ (vmode_of v2 <> MNormal -> curok (snd y))).
  apply wp_bind. apply (wp_mono _ _ J _ anyE _ anyP); auto.
  { destruct last; try (apply wp_ret; repeat split; exact Hs1).
    apply wp_bind. apply wp_lift.
    apply (wp_mono _ _ (fun _ s' => curok s' /\ ed_noeol s' = ed_noeol s1) _ anyE _ anyP); auto.
    - destruct mt; [apply rs_del_until_inc|apply rs_del_until].
    - intros u s' [K1 K2]. unfold modk, wp. split; [reflexivity|]. split; [exact K2|]. intros _. exact K1. }
  intros u [v4 s4] [Hv [Hn Hc]]. cbn [fst snd] in *.
  apply wp_bind. apply (wp_mono _ _ J _ anyE _ anyP); auto.
  { apply wp_when; intro; [|repeat split; assumption]. unfold modk, wp. split; [exact Hv|]. split; assumption. }
  intros u' [v5 s5] [Hv5 [Hn5 Hc5]]. cbn [fst snd] in *.
  assert (Em : vmode_of v5 = vmode_of v2) by (unfold vmode_of; rewrite Hv5; reflexivity).
  eapply wp_mono; [apply wp_set_editor_mode; rewrite Em; assumption| | |]; auto.
  intros x y [Hy _]. exact Hy.
Qed.

Lemma kp_mcr : kpres mcr viI.
Proof. unfold mcr. apply kpres_bind; [apply kpres_getk|]. intro. apply kpres_bind; [apply kpres_gete|]. intro. apply kpres_liftr. Qed.

Create HintDb kc.
#[export] Hint Resolve kp_start_group kp_end_group kp_smpl kp_set_mode kp_pop_mode kp_abort kp_pop_am kp_mcr : kc.

Ltac kc1 :=
  cbv beta zeta;
  match goal with
  | |- kpres (match ?b with _ => _ end) _ => destruct b
  | |- kpres (ret _) _ => apply kpres_ret
  | |- kpres (fail _) _ => apply kpres_fail
  | |- kpres (pan _) _ => apply kpres_pan
  | |- kpres (liftr _) _ => apply kpres_liftr
  | |- kpres gete _ => apply kpres_gete
  | |- kpres getk _ => apply kpres_getk
  | |- kpres (modk _) _ => apply kpres_modk_vi; let v := fresh in intro v; reflexivity
  | |- kpres (when _ _) _ => apply kpres_when
  | |- kpres (Nloop _ _) _ => apply kpres_Nloop
  | |- kpres (mfor _ _) _ => apply kpres_mfor; intro
  | H : _ |- kpres _ _ => solve [apply H]
  | |- kpres (lift (match ?b with _ => _ end)) _ => destruct b
  | |- kpres (lift _) _ => first [apply kp_lift_vi_r; solve [auto with cur] | apply kp_lift_vi; solve [auto with cur]]
  | |- kpres _ _ => solve [auto with kc]
  | |- kpres (bind _ _) _ => apply kpres_bind; [|intro]
  end.
Ltac kc := repeat kc1.

Lemma rs_vi_word : forall E a b n, restores (vi_move_word E a b n).
Proof. intros. unfold vi_move_word. cur. Qed.
Lemma rs_vi_word_end : forall E a b n, restores (vi_move_word_end E a b n).
Proof. intros. unfold vi_move_word_end. cur. Qed.
#[export] Hint Resolve rs_vi_word rs_vi_word_end : cur.

Lemma kp_vi_common : forall E k, kpres (vi_common E k) viI.
Proof.
  intros E k. unfold vi_common.
  destruct k; try (apply kp_lift_vi_r; solve [auto with cur]); try (apply kp_lift_vi; solve [auto with cur]).
  kc.
Qed.
Lemma kp_insert_reset : kpres insert_reset viI.
Proof. unfold insert_reset. kc. Qed.
Lemma kp_push_last : forall k, kpres (push_last k) viI.
Proof. intro k. unfold push_last. kc. Qed.
Lemma kp_push_cur : forall k, kpres (push_cur k) viI.
Proof. intro k. unfold push_cur. kc. Qed.
#[export] Hint Resolve kp_vi_common kp_insert_reset kp_push_last kp_push_cur : kc.
Lemma kp_tilde : forall E, kpres (tilde_step E) viI.
Proof. intro E. unfold tilde_step. kc. Qed.
Lemma kp_move_to_char : forall E k m, kpres (vi_move_to_char E k m) viI.
Proof. intros. unfold vi_move_to_char. kc. Qed.
#[export] Hint Resolve kp_tilde kp_move_to_char : kc.
Lemma kp_repeat : forall rec, (forall k, kpres (rec k) viI) -> kpres (vi_repeat rec) viI.
Proof. intros rec H. unfold vi_repeat. kc. Qed.
Lemma kp_vi_insert : forall rec E k, (forall k, kpres (rec k) viI) -> kpres (vi_insert rec E k) viI.
Proof. intros rec E k H. unfold vi_insert. kc. Qed.
Lemma kp_vi_normal : forall rec E k, (forall k, kpres (rec k) viI) -> kpres (vi_normal rec E k) viI.
Proof. intros rec E k H. pose proof (kp_repeat rec H) as Hr. unfold vi_normal. kc. Qed.
Lemma kp_vi_replace : forall E k, kpres (vi_replace E k) viI.
Proof. intros E k. unfold vi_replace. kc. Qed.
Lemma kp_vi_doc : forall rec E k, (forall k, kpres (rec k) viI) -> kpres (vi_delete_or_change rec E k) viI.
Proof. intros rec E k H. pose proof (kp_vi_normal rec E k H) as Hr. unfold vi_delete_or_change. kc. Qed.
Lemma kp_finally : forall m f, kpres m viI -> (forall v, v_stack (f v) = v_stack v) -> kpres (finally m f) viI.
Proof.
  intros m f Hm Hf x Hx. specialize (Hm x Hx). unfold wp, finally in *.
  destruct (m x) as [a [v s]|e [v s]| |]; try exact I. destruct Hm as [H1 H2]. split; [exact H1|].
  cbn [fst snd] in *. unfold vmode_of. rewrite Hf. exact H2.
Qed.
Lemma kp_vi_g : forall E k, kpres (vi_g E k) viI.
Proof.
  intros E k. unfold vi_g.
  assert (Hf : kpres (finally (pop_mode_after_movement E Inclusive) (vset_count 0)) viI).
  { apply kp_finally; [apply kp_pop_am|reflexivity]. }
  kc.
Qed.
#[export] Hint Resolve kp_vi_replace kp_vi_g : kc.

Lemma kp_vi_core_fuel : forall f E k, kpres (vi_core_fuel f E k) viI.
Proof.
  induction f as [|f IH]; intros E k; [intros x _; exact I|]. cbn [vi_core_fuel].
  pose proof (kp_vi_normal _ E k (IH E)). pose proof (kp_vi_insert _ E k (IH E)).
  pose proof (kp_vi_doc _ E k (IH E)). kc.
Qed.
Lemma kp_vi_core : forall E k, kpres (vi_core E k) viI.
Proof. intros E k. unfold vi_core. apply kpres_bind; [apply kpres_getk|]. intro v. apply kp_vi_core_fuel. Qed.
Lemma kp_vi_init : forall E, kpres (vi_init E) viI.
Proof.
  intro E. unfold vi_init. apply kpres_bind; [apply kp_start_group|]. intros u [v s] [H1 H2].
  eapply wp_mono; [apply wp_set_editor_mode; [exact H2|intro; exact H1]| | |]; auto. intros x y [Hy _]. exact Hy.
Qed.

Lemma vi_cursor : forall E p f ib h w cb ttys s keys d k s',
  editor_new E p f ib h w cb ttys = ORet tt s ->
  (vi_init E ;;; run_keys vi_core keys) (vi_new, s) = ORet d (k, s') ->
  exists b, cur_buf s' = Val b /\ ed_cursor s' <= num_chars b /\
    (vmode_of k = MNormal -> data b <> [] -> ed_cursor s' < num_chars b).
Proof.
  intros E p f ib h w cb ttys s keys d k s' H0 H1. apply editor_new_curok in H0.
  assert (H : kpres (vi_init E ;;; run_keys vi_core keys) viI).
  { apply kpres_bind; [apply kp_vi_init|]. intro.
    apply kpres_run_keys; [exact viI_local|exact kp_vi_core]. }
  specialize (H (vi_new, s)). assert (HI : viI (vi_new, s)) by (destruct H0; split; assumption).
  pose proof (wp_ret_of _ _ _ _ _ _ _ (H HI) H1) as [[b [Hb Hc]] Hn]. cbn [fst snd] in *. exists b.
  split; [exact Hb|]. split; [exact (clamp_le _ _ _ Hc)|].
  intros Hm Hd. rewrite Hn, Hm in Hc. cbn [is_normal] in Hc. apply (clamp_lt _ _ Hc).
  unfold num_chars. destruct (data b); [congruence|cbn; lia].
Qed.
