(** Proofs about autosuggestions, undo on recalled lines, [take_exec_buffer],
    [clear] and the completion list. *)
From Verif Require Import Base Utf8 BufferModel UtilModel HistoryModel EditorState EditorModel
  KeymapModel MonadLemmas EditorLemmas CursorProofs Lemmas BufferSpec BufferProofs BufferGroups
  TextProofs HistorySpec HistoryProofs EditorSpec ErrorProofs EditorProofs.
Local Open Scope monad_scope.

Lemma newest_match_data : forall h p b, get_newest_match h p b = get_newest_match h p (buf_of (data b)).
Proof. reflexivity. Qed.
Lemma search_index_data : forall h b, search_index h b = search_index h (buf_of (data b)).
Proof. reflexivity. Qed.
Lemma hist_len_texts : forall h, hist_len h = length (texts h).
Proof. intro h. unfold texts. rewrite map_length. reflexivity. Qed.
Lemma hist_get_texts : forall h i b, hist_get h i = Val b -> nth_error (texts h) i = Some (data b).
Proof.
  intros h i b H. unfold hist_get, index in H. apply nth_texts.
  destruct (nth_error (buffers h) i) as [x|]; [|discriminate]. injection H as ->. eauto.
Qed.

(** * C30 *)

Lemma suggestion_is : forall s o,
  ed_loc s = None -> ed_hvalid s = false -> is_search s = false -> ed_showauto s = true ->
  current_autosuggestion s = Val o ->
  match o with
  | Some g => data (ed_new s) <> [] /\
      newest_extending (texts (ed_history s)) (data (ed_new s)) (data g)
  | None => data (ed_new s) = [] \/
      forall x, In x (texts (ed_history s)) -> ~ extends (data (ed_new s)) x
  end.
Proof.
  intros s o Hl Hv Hs Ha G. unfold current_autosuggestion in G. rewrite Hv, Hs, Ha, Hl in G.
  rewrite newest_match_data, hist_len_texts in G.
  pose proof (newest_match_spec (ed_history s) (Some (length (texts (ed_history s)))) (data (ed_new s))) as N.
  cbv zeta in N. destruct (get_newest_match _ _ _) as [i|].
  - destruct N as [N1 [N2 [[x [N3 N4]] N5]]].
    destruct (hist_get (ed_history s) i) as [gb|] eqn:Eg; [|discriminate]. cbn [rbind] in G. injection G as <-.
    pose proof (hist_get_texts _ _ _ Eg) as Hx. rewrite N3 in Hx. injection Hx as ->.
    split; [exact N2|]. destruct (nth_error_split _ _ N3) as [old [new [D1 D2]]].
    exists old, new. split; [exact D1|]. split; [exact N4|]. intros y Hy.
    apply In_nth_error in Hy as [k Hk].
    apply (N5 (S i + k)).
    + split; [lia|]. rewrite D1, app_length. cbn [length].
      assert (k < length new) by (apply nth_error_Some; congruence). lia.
    + rewrite D1, nth_error_app2 by lia. replace (S i + k - length old) with (S k) by lia. exact Hk.
  - injection G as <-. destruct (data (ed_new s)) as [|c t] eqn:Ed; [left; reflexivity|right].
    intros x Hx. apply In_nth_error in Hx as [k Hk].
    destruct (N k x) as [D|D]; [apply nth_error_Some; congruence|exact Hk|discriminate|exact D].
Qed.
Lemma suggestion_out : forall E s u s',
  ed_loc s = None -> ed_hvalid s = false -> is_search s = false -> ed_showauto s = true ->
  display E s = ORet u s' ->
  match ed_sugg s' with
  | Some g => data (ed_new s) <> [] /\
      newest_extending (texts (ed_history s)) (data (ed_new s)) (data g)
  | None => data (ed_new s) = [] \/
      forall x, In x (texts (ed_history s)) -> ~ extends (data (ed_new s)) x
  end.
Proof.
  intros E s u s' Hl Hv Hs Ha H. destruct (display_plain _ _ _ _ Hs H) as [g [b [tcl [cb [tty [G [_ ->]]]]]]].
  exact (suggestion_is s g Hl Hv Hs Ha G).
Qed.

Lemma move_end_out : forall E s u s' b, is_search s = false -> cur_buf s = Val b ->
  move_cursor_to_end_of_line E s = ORet u s' ->
  exists g tcl cb tty, s' = shown s g (clamp_cursor (ed_noeol s) (num_chars b) (num_chars b)) tcl cb tty.
Proof.
  intros E s u s' b Hs Hb H. unfold move_cursor_to_end_of_line, bind, get_cur in H. rewrite Hb in H.
  unfold modify in H.
  assert (Hs' : is_search (set_cursor (num_chars b) s) = false) by exact Hs.
  destruct (display_plain _ _ _ _ Hs' H) as [g [b2 [tcl [cb [tty [_ [H2 ->]]]]]]].
  change (cur_buf (set_cursor (num_chars b) s)) with (cur_buf s) in H2.
  assert (b2 = b) by congruence. subst b2. exists g, tcl, cb, tty. destruct s; reflexivity.
Qed.

Lemma cur_buf_clear : forall s, cur_buf (clear_search s) = cur_buf s.
Proof. reflexivity. Qed.

Lemma accept_out : forall E s u s' b g x r, is_search s = false -> ed_showauto s = true ->
  cur_buf s = Val b -> ed_sugg s = Some g -> data g = data b ++ x :: r ->
  accept_autosuggestion E s = ORet u s' ->
  exists b', cur_buf s' = Val b' /\ data b' = data g /\
    ed_cursor s' = clamp_cursor (ed_noeol s) (length (data g)) (length (data g)) /\
    ed_loc s' = ed_loc s /\
    exists b'', buf_undo b' = Val (true, b'') /\ data b'' = data b.
Proof.
  intros E s u s' b g x r Hs Ha Hb Hg Hd H. unfold accept_autosuggestion in H. rewrite bind_get in H.
  apply bind_inv in H as [u0 [s0 [H0 H]]]. rewrite bind_modify in H.
  rewrite Ha in H0. cbn [when] in H0. rewrite (with_cur_mut_eq _ _ _ Hb), Hg, Hs in H0.
  unfold unit_op in H0.
  assert (Hle : length (data (opened s b)) <= length (data g)).
  { rewrite data_opened, Hd, app_length. lia. }
  set (bo := opened s b) in *.
  destruct (extend_step bo (data g) Hle) as [ac [d' [S1 [S2 S3]]]].
  assert (Heq : insert_from_buffer bo g = insert_from_buffer bo (buf_of (data g))) by reflexivity.
  rewrite Heq, S2 in H0. cbn [rbind] in H0.
  set (b' := mkBuf d' (ac :: actions bo) []) in *. injection H0 as _ <-.
  assert (Hd' : d' = data g).
  { rewrite S3. unfold bo. rewrite data_opened, Hd, skipn_app_len. reflexivity. }
  assert (Hc : cur_buf (clear_search (store b' s)) = Val b') by (rewrite cur_buf_clear; apply cur_store).
  assert (Hcs : is_search (clear_search (store b' s)) = false) by reflexivity.
  destruct (move_end_out E _ _ _ _ Hcs Hc H) as [g' [tcl [cb [tty ->]]]].
  exists b'. split; [rewrite cur_buf_shown; exact Hc|]. split; [exact Hd'|].
  assert (Hn : num_chars b' = length (data g)) by (unfold num_chars, b'; cbn; rewrite Hd'; reflexivity).
  split; [unfold shown, clear_search; edsimp; rewrite Hn, store_noeol; reflexivity|].
  split; [unfold shown, clear_search; edsimp; apply store_loc|].
  assert (Hins : insert_from_buffer bo g = buf_insert bo (length (data bo)) (x :: r)).
  { unfold insert_from_buffer, slice. unfold bo in *. rewrite data_opened in *.
    rewrite Hd, app_length.
    replace (length (data b) <=? length (data b) + length (x :: r)) with true
      by (symmetry; apply Nat.leb_le; lia). rewrite Nat.leb_refl. cbn [andb rbind].
    rewrite skipn_app_len, firstn_all2 by lia. reflexivity. }
  destruct (undo_edit bo (EInsert (length (data bo)) (x :: r)) b') as [b'' [U1 [U2 _]]].
  - cbn. lia.
  - cbn [run_edit]. rewrite <- Hins, Heq. exact S2.
  - exists b''. split; [exact U1|]. rewrite U2. apply data_opened.
Qed.

(** The two keys that accept a suggestion. *)
Lemma accept_key : forall {K} (core : env -> key -> MK K unit) E x s b d x' s' k,
  cur_buf s = Val b -> showing_autosuggestion s = true ->
  k = KCtrl (ch "f") \/ (k = KRight /\ cursor_is_at_end_of_line s = Val true) ->
  handle_key core E k (x, s) = ORet d (x', s') ->
  d = false /\ x' = x /\ accept_autosuggestion E s = ORet tt s'.
Proof.
  intros K core E x s b d x' s' k Hb Hg Hk H. unfold handle_key, bind at 1 2 in H. cbn [gete] in H.
  rewrite Hb in H. destruct Hk as [->|[-> He]].
  - change (is_char (ch "f") "h") with false in H. cbv beta iota zeta in H.
    change (is_char (ch "f") "c") with false in H. change (is_char (ch "f") "d") with false in H.
    change (is_char (ch "f") "f") with true in H. rewrite Hg in H. cbn [andb] in H. cbv iota in H.
    unfold bind, lift, ret, fail in H.
    destruct (accept_autosuggestion E s) as [[] s0| | |]; try discriminate.
    destruct (e_wok E); [|discriminate]. injection H as <- <- <-. auto.
  - cbv beta iota zeta in H. rewrite Hg, He in H. unfold bind, lift, ret, fail in H.
    destruct (accept_autosuggestion E s) as [[] s0| | |]; try discriminate.
    destruct (e_wok E); [|discriminate]. injection H as <- <- <-. auto.
Qed.

(** A redraw, then accepting what it suggests. *)
Lemma suggest_accept : forall {K} (core : env -> key -> MK K unit) E E' s u s1 g x d x' s2 k,
  ed_loc s = None -> ed_hvalid s = false -> is_search s = false -> ed_showauto s = true ->
  ed_noeol s = false ->
  display E s = ORet u s1 -> ed_sugg s1 = Some g ->
  k = KCtrl (ch "f") \/ (k = KRight /\ ed_cursor s1 = length (data (ed_new s))) ->
  handle_key core E' k (x, s1) = ORet d (x', s2) ->
  d = false /\ x' = x /\ line_is s2 (data g) (length (data g)) /\ ed_loc s2 = None /\
  exists b'', buf_undo (ed_new s2) = Val (true, b'') /\ data b'' = data (ed_new s).
Proof.
  intros K core E E' s u s1 g x d x' s2 k Hl Hv Hs Ha Hn Hd Hg Hk H.
  pose proof (suggestion_out _ _ _ _ Hl Hv Hs Ha Hd) as Sg. rewrite Hg in Sg.
  destruct Sg as [_ [old [new [_ [[y [r Hx]] _]]]]].
  destruct (display_plain _ _ _ _ Hs Hd) as [g' [b [tcl [cb [tty [_ [Hb Heq]]]]]]].
  assert (Eb : b = ed_new s) by (unfold cur_buf in Hb; rewrite Hl in Hb; congruence). subst b.
  assert (Hb1 : cur_buf s1 = Val (ed_new s)) by (rewrite Heq; exact Hb).
  assert (Hsh : showing_autosuggestion s1 = true) by (unfold showing_autosuggestion; rewrite Hg; reflexivity).
  assert (Hn1 : ed_noeol s1 = false) by (rewrite Heq; exact Hn).
  assert (Hk' : k = KCtrl (ch "f") \/ (k = KRight /\ cursor_is_at_end_of_line s1 = Val true)).
  { destruct Hk as [->|[-> Hc]]; [left; reflexivity|right]. split; [reflexivity|].
    unfold cursor_is_at_end_of_line. rewrite Hb1, Hn1. cbn [rbind]. unfold num_chars. rewrite Hc, Nat.eqb_refl. reflexivity. }
  destruct (accept_key core E' x s1 _ d x' s2 k Hb1 Hsh Hk' H) as [-> [-> Hacc]].
  assert (Hs1 : is_search s1 = false) by (rewrite Heq; exact Hs).
  assert (Ha1 : ed_showauto s1 = true) by (rewrite Heq; exact Ha).
  destruct (accept_out E' s1 tt s2 (ed_new s) g y r Hs1 Ha1 Hb1 Hg Hx Hacc)
    as [b' [B1 [B2 [B3 [B4 B5]]]]].
  assert (Hl2 : ed_loc s2 = None) by (rewrite B4, Heq; exact Hl).
  assert (Hb' : b' = ed_new s2) by (unfold cur_buf in B1; rewrite Hl2 in B1; congruence). subst b'.
  split; [reflexivity|]. split; [reflexivity|]. split.
  - exists (ed_new s2). split; [exact B1|]. split; [exact B2|]. rewrite B3, Hn1. apply clamp_false. lia.
  - split; [exact Hl2|exact B5].
Qed.

(** * C33 *)

Lemma undo_nothing_new : forall E s, ed_loc s = None -> is_search s = false ->
  actions (ed_new s) = [] ->
  match ed_undo E s with
  | ORet d s' => d = false /\ cur_buf s' = Val (ed_new s) 
  | _ => True
  end.
Proof.
  intros E s Hl Hs Ha. unfold ed_undo, undo_like, bind.
  assert (Hb : cur_buf s = Val (ed_new s)) by (unfold cur_buf; rewrite Hl; reflexivity).
  rewrite (with_cur_mut_eq _ _ _ Hb). unfold opened. rewrite Hl. unfold buf_undo. rewrite Ha.
  cbn [undo_loop rbind nonempty]. set (b' := mkBuf _ _ _).
  assert (Eb : b' = ed_new s) by (unfold b'; rewrite <- Ha; destruct (ed_new s); reflexivity).
  destruct (display E (store b' s)) as [u s'| | |] eqn:Ed; try exact I.
  assert (Hss : is_search (store b' s) = false) by (rewrite store_search; exact Hs).
  destruct (display_plain _ _ _ _ Hss Ed) as [g [b2 [tcl [cb [tty [_ [H2 ->]]]]]]].
  split; [reflexivity|]. rewrite cur_buf_shown, cur_store, Eb. reflexivity.
Qed.

(** On a recalled line that has not been edited, undo blanks the line. *)
Lemma undo_recalled : forall E s i b, ed_loc s = Some i -> ed_hvalid s = false -> is_search s = false ->
  cur_buf s = Val b ->
  match ed_undo E s with
  | ORet d s' => d = true /\ line_is s' [] 0
  | _ => True
  end.
Proof.
  intros E s i b Hl Hv Hs Hb. unfold ed_undo, undo_like, bind.
  rewrite (with_cur_mut_eq _ _ _ Hb). unfold opened. rewrite Hl, Hv.
  unfold buf_undo, copied. cbn [actions undone data undo_loop act_undo].
  pose proof (remove_raw_app [] (data b) []) as R. cbn [length Nat.add app] in R. rewrite app_nil_r in R.
  cbn [Nat.add]. rewrite R. cbn [rbind snd]. rewrite Z.eqb_refl. cbn [andb Nat.ltb Nat.leb rbind nonempty].
  set (b' := mkBuf _ _ _).
  destruct (move_cursor_to_end_of_line E (store b' s)) as [u s'| | |] eqn:Em; try exact I.
  assert (Hss : is_search (store b' s) = false) by (rewrite store_search; exact Hs).
  destruct (move_end_out E _ _ _ _ Hss (cur_store b' s) Em) as [g [tcl [cb [tty ->]]]].
  split; [reflexivity|]. exists b'. rewrite cur_buf_shown. split; [apply cur_store|].
  split; [reflexivity|]. unfold shown. edsimp. unfold num_chars, clamp_cursor. cbn.
  rewrite andb_false_r. reflexivity.
Qed.

(** * C34 *)

Lemma take_exec_out : forall s b, cur_buf s = Val b ->
  exists s', take_exec_buffer s = ORet (data b) s' /\
    cur_buf s' = Val buf_new /\ ed_loc s' = ed_loc s /\ (ed_loc s <> None -> ed_new s' = ed_new s) /\
    (ed_loc s = None \/ ed_hvalid s = true -> ed_history s' = ed_history s) /\
    (forall i, ed_loc s = Some i -> ed_hvalid s = false ->
       exists old new, buffers (ed_history s) = old ++ b :: new /\ length old = i /\
         buffers (ed_history s') = old ++ buf_new :: new).
Proof.
  intros s b Hb. unfold take_exec_buffer, cur_buf in *. destruct (ed_loc s) as [i|] eqn:El.
  - destruct (ed_hvalid s) eqn:Ev.
    + injection Hb as <-. eexists. split; [reflexivity|]. edsimp. rewrite El, Ev. split; [reflexivity|split; [reflexivity|split; [reflexivity|split; [reflexivity|discriminate]]]].
    + rewrite Hb. eexists. split; [reflexivity|]. edsimp. rewrite El, Ev.
      split; [|split; [reflexivity|split; [reflexivity|]]].
      { unfold hist_get, index in *. cbn [set_buffers buffers]. destruct (nth_error (buffers (ed_history s)) i) as [x|] eqn:En; [|discriminate].
        destruct (nth_error_split _ _ En) as [old [new [D1 D2]]]. rewrite D1. subst i. clear.
        assert (Q : nth_error (list_set (old ++ x :: new) (length old) buf_new) (length old) = Some buf_new);
          [induction old as [|y old IH]; [reflexivity|exact IH]|]. rewrite Q. reflexivity. }
      split; [intros [H|H]; discriminate|].
      intros j Hj _. injection Hj as <-.
      unfold hist_get, index in Hb. destruct (nth_error (buffers (ed_history s)) i) as [x|] eqn:En; [|discriminate].
      injection Hb as ->. destruct (nth_error_split _ _ En) as [old [new [D1 D2]]].
      exists old, new. split; [exact D1|]. split; [exact D2|].
      unfold set_buffers. cbn [buffers]. rewrite D1. subst i. clear.
      induction old as [|y old IH]; cbn; [reflexivity|]. rewrite IH. reflexivity.
  - injection Hb as <-. eexists. split; [reflexivity|]. edsimp. rewrite El. split; [reflexivity|split; [reflexivity|split; [congruence|split; [reflexivity|discriminate]]]].
Qed.

(** * C43 *)

(** The tokens of a redraw never clear the whole screen. *)
Definition no_clear (l : list tok) : Prop := ~ In TClearAll l.
Lemma no_clear_app : forall a b, no_clear a -> no_clear b -> no_clear (a ++ b).
Proof. intros a b Ha Hb H. apply in_app_or in H. destruct H; auto. Qed.
Lemma no_clear_nil : no_clear [].
Proof. intros H. exact H. Qed.
Lemma no_clear_cons : forall t l, t <> TClearAll -> no_clear l -> no_clear (t :: l).
Proof. intros t l Ht Hl [H|H]; auto. Qed.
Ltac nc := repeat first
  [ apply no_clear_app | apply no_clear_nil | apply no_clear_cons; [discriminate|]
  | assumption
  | match goal with |- no_clear (match ?x with _ => _ end) => destruct x end ].

Lemma print_lines_nc : forall srch clos pw lines i n rem t,
  print_lines srch clos pw i n rem lines = Val t -> no_clear t.
Proof.
  induction lines as [|l lines IH]; intros i n rem t H; cbn [print_lines] in H.
  - injection H as <-. apply no_clear_nil.
  - destruct (rem =? 0).
    + destruct (print_lines _ _ _ _ _ _ _) eqn:Er; [|discriminate]. apply IH in Er. injection H as <-. nc.
    + destruct (rem <? blen l).
      * destruct (bsplit l rem) as [[x y]|]; [|discriminate]. cbn [rbind] in H.
        destruct (print_lines _ _ _ _ _ _ _) eqn:Er; [|discriminate]. apply IH in Er. injection H as <-. nc.
      * destruct (print_lines _ _ _ _ _ _ _) eqn:Er; [|discriminate]. apply IH in Er. injection H as <-. nc.
Qed.
Lemma print_comps_nc : forall cw cols l i ix hl t,
  print_comps cw cols i ix hl l = Val t -> no_clear t.
Proof.
  induction l as [|c l IH]; intros i ix hl t H; cbn [print_comps] in H.
  - injection H as <-. apply no_clear_nil.
  - destruct (i =? cols).
    + destruct (print_comps _ _ _ _ _ _) eqn:Er; [|discriminate]. apply IH in Er. injection H as <-. nc.
    + destruct (cols <? i); [discriminate|].
      destruct (print_comps _ _ _ _ _ _) eqn:Er; [|discriminate]. apply IH in Er. injection H as <-. nc.
Qed.
Lemma render_nc : forall U show tw w prompt rpw b s t tcl,
  display_render U show tw w prompt rpw b s = Val (t, tcl) -> no_clear t.
Proof.
  intros U show tw w prompt rpw b s t tcl H. unfold display_render in H.
  destruct (buf_width U b); [|discriminate]. cbn [rbind] in H.
  destruct (match ed_sugg s with Some g => _ | None => _ end); [|discriminate]. cbn [rbind] in H.
  destruct (match ed_sugg s with Some g => _ | None => range_width U b 0 (ed_cursor s) end); [|discriminate]. cbn [rbind] in H.
  destruct (if 1 <? ed_tcl s then _ else _) as [t1|] eqn:E1; [|discriminate]. cbn [rbind] in H.
  destruct (match ed_hint s with Some _ => _ | None => _ end) as [[t2 cl]|] eqn:E2; [|discriminate]. cbn [rbind] in H.
  destruct (print_lines _ _ _ _ _ _ _) as [t3|] eqn:E3; [|discriminate]. cbn [rbind] in H.
  match type of H with rbind ?x _ = _ => destruct x as [t4|] eqn:E4; [|discriminate] end. cbn [rbind] in H.
  injection H as <- _. apply print_lines_nc in E3.
  assert (N1 : no_clear t1).
  { destruct (1 <? ed_tcl s); [destruct (u16_of (ed_tcl s) =? 0)%N; [discriminate|]|]; injection E1 as <-; nc. }
  assert (N2 : no_clear t2).
  { destruct (ed_hint s) as [[cs hi]|]; [|injection E2 as <- <-; nc].
    unfold print_completion_list in E2. destruct (completion_cols w cs) as [cw cols].
    destruct (print_comps cw cols 0 0 hi cs) eqn:Ep; [|discriminate]. cbn [rbind] in E2.
    injection E2 as <- <-. apply print_comps_nc in Ep. nc. }
  assert (N4 : no_clear t4).
  { match type of E4 with (if ?x then _ else if ?y then _ else _) = _ => destruct x; [|destruct y; [discriminate|]] end;
      injection E4 as <-; nc. }
  nc.
Qed.

Lemma display_tty : forall E s u s', display E s = ORet u s' ->
  exists t, ed_tty s' = ed_tty s ++ t /\ ed_cbuf s' = ed_cbuf s ++ t /\ no_clear t.
Proof.
  intros E s u s' H. destruct (display_impl_of E s u s' H) as [g [_ Hi]].
  pose proof (display_impl_drawn E true (set_sugg g (refreshed s))) as D. rewrite Hi in D.
  destruct D as [pr [rpw [w [tw [b [t [tcl [_ [_ [_ [_ [Er ->]]]]]]]]]]]]. apply render_nc in Er.
  assert (ed_tty (refreshed s) = ed_tty s /\ ed_cbuf (refreshed s) = ed_cbuf s) as [Ht Hcb].
  { unfold refreshed. destruct (is_search s && ed_changed s); split; reflexivity. }
  exists t. unfold shown. edsimp. rewrite Ht, Hcb. auto.
Qed.

Lemma clear_eq : forall E s, clear E s =
  display E (clear_search (set_tcl 1 (set_cbuf (ed_cbuf s ++ [TClearAll; TGoto11]) s))).
Proof. intros E s. unfold clear. rewrite bind_modify. reflexivity. Qed.

Lemma clear_out : forall E s u s', clear E s = ORet u s' ->
  exists t, ed_tty s' = ed_tty s ++ t /\ ~ In TClearAll t /\
    ed_cbuf s' = ed_cbuf s ++ [TClearAll; TGoto11] ++ t.
Proof.
  intros E s u s' H. rewrite clear_eq in H.
  destruct (display_tty _ _ _ _ H) as [t [H1 [H2 H3]]]. exists t.
  split; [exact H1|]. split; [exact H3|]. rewrite H2. unfold clear_search. edsimp.
  rewrite <- app_assoc. reflexivity.
Qed.

(** * C44 *)

Lemma rows_nonnil : forall l, rows l <> [].
Proof. intros [|t l]; [discriminate|]. destruct t; cbn; try discriminate; destruct (rows l); discriminate. Qed.

(** The tokens of one candidate contain no line break. *)
Definition item_toks (cw : nat) (hl : option nat) (ix : nat) (com : text) : list tok :=
  if match hl with Some h => ix =? h | None => false end
  then [TFg 0; TBg 7; TStr (pad com cw); TBgReset; TFgReset] else [TStr (pad com cw)].

Lemma print_comps_eq : forall cw cols l i ix hl, 0 < cols -> i <= cols ->
  print_comps cw cols i ix hl l =
  match l with
  | [] => Val []
  | com :: l' =>
    rbind (print_comps cw cols (if i =? cols then 1 else S i) (S ix) hl l') (fun r =>
      Val ((if i =? cols then [TCRLF] else []) ++ item_toks cw hl ix com ++ r))
  end.
Proof.
  intros cw cols l i ix hl Hc Hi. destruct l as [|com l]; [reflexivity|]. cbn [print_comps].
  destruct (i =? cols) eqn:E; [reflexivity|].
  replace (cols <? i) with false by (symmetry; apply Nat.ltb_ge; exact Hi). reflexivity.
Qed.

Lemma tok_texts_app : forall a b, tok_texts (a ++ b) = tok_texts a ++ tok_texts b.
Proof. intros. unfold tok_texts. apply flat_map_app. Qed.
Lemma tok_texts_item : forall cw hl ix com, tok_texts (item_toks cw hl ix com) = [pad com cw].
Proof. intros. unfold item_toks. destruct (match hl with Some h => ix =? h | None => false end); reflexivity. Qed.

Lemma rows_item : forall cw hl ix com l,
  exists r rs, rows l = r :: rs /\
    rows (item_toks cw hl ix com ++ l) = (item_toks cw hl ix com ++ r) :: rs.
Proof.
  intros cw hl ix com l. destruct (rows l) as [|r rs] eqn:E; [destruct (rows_nonnil _ E)|].
  exists r, rs. split; [reflexivity|]. unfold item_toks.
  destruct (match hl with Some h => ix =? h | None => false end); cbn; rewrite E; reflexivity.
Qed.

(** How many rows [n] candidates need when the first one has [i] before it. *)
Lemma print_comps_ok : forall cw cols l i ix hl, 0 < cols -> i <= cols ->
  exists t, print_comps cw cols i ix hl l = Val t /\
    tok_texts t = map (fun c => pad c cw) l /\
    exists r rs, rows t = r :: rs /\
      length (tok_texts r) <= cols - i /\
      (rs <> [] -> length (tok_texts r) = cols - i) /\
      (forall k x, nth_error rs k = Some x -> length (tok_texts x) <= cols /\
         (S k < length rs -> length (tok_texts x) = cols)) /\
      (rs <> [] -> forall x, In x rs -> tok_texts x <> []).
Proof.
  intros cw cols l. induction l as [|com l IH]; intros i ix hl Hc Hi; rewrite print_comps_eq by assumption.
  - exists []. split; [reflexivity|]. split; [reflexivity|]. exists [], []. split; [reflexivity|].
    split; [cbn; lia|]. split; [congruence|]. split; [intros [|k]; discriminate|congruence].
  - set (i' := if i =? cols then 1 else S i).
    assert (Hi' : i' <= cols) by (unfold i'; destruct (i =? cols) eqn:E; [lia|apply Nat.eqb_neq in E; lia]).
    destruct (IH i' (S ix) hl Hc Hi') as [t [H1 [H2 [r [rs [H3 [H4 [H5 [H6 H7]]]]]]]]].
    rewrite H1. cbn [rbind]. eexists. split; [reflexivity|].
    destruct (rows_item cw hl ix com t) as [r0 [rs0 [R1 R2]]]. rewrite H3 in R1. injection R1 as <- <-.
    assert (Hlen : length (tok_texts (item_toks cw hl ix com ++ r)) = S (length (tok_texts r))).
    { rewrite tok_texts_app, tok_texts_item. reflexivity. }
    split.
    { rewrite !tok_texts_app, tok_texts_item, H2. destruct (i =? cols); reflexivity. }
    destruct (i =? cols) eqn:Ei.
    + apply Nat.eqb_eq in Ei. subst i. cbn [app]. change (rows (TCRLF :: ?x)) with ([] :: rows x).
      exists [], (rows (item_toks cw hl ix com ++ t)). split; [reflexivity|].
      split; [cbn; lia|]. split; [cbn; lia|]. rewrite R2. unfold i' in *. split.
      * intros [|k] x Hk; cbn in Hk.
        -- injection Hk as <-. rewrite Hlen. split; [lia|]. cbn. intro Hl.
           rewrite H5; [lia|]. intro; subst; cbn in Hl; lia.
        -- destruct (H6 k x Hk) as [K1 K2]. split; [exact K1|]. cbn. intro Hl. apply K2. lia.
      * intros _ x [<-|Hx].
        -- rewrite tok_texts_app, tok_texts_item. discriminate.
        -- apply H7; [|exact Hx]. intro; subst; contradiction.
    + apply Nat.eqb_neq in Ei. cbn [app]. exists (item_toks cw hl ix com ++ r), rs.
      split; [exact R2|]. unfold i' in *. rewrite Hlen.
      split; [lia|]. split; [intro Hr; rewrite H5 by exact Hr; lia|]. split; assumption.
Qed.

Lemma total_texts : forall t, exists r rs, rows t = r :: rs /\ length (tok_texts t) = length (tok_texts r) + list_sum (map (fun x => length (tok_texts x)) rs).
Proof.
  induction t as [|x t IH]; [exists [], []; split; reflexivity|].
  destruct IH as [r [rs [H1 H2]]].
  assert (G : forall y, y <> TCRLF -> length (tok_texts (y :: t)) = length (tok_texts (y :: r)) +
                list_sum (map (fun x => length (tok_texts x)) rs)).
  { intros y _. change (y :: t) with ([y] ++ t). change (y :: r) with ([y] ++ r).
    rewrite !tok_texts_app, !app_length, H2. lia. }
  destruct x; cbn [rows]; rewrite H1;
    first [ exists [], (r :: rs); split; [reflexivity|]; exact H2
          | eexists; eexists; split; [reflexivity|]; apply G; discriminate ].
Qed.

Lemma rows_count : forall (ls : list nat) c, 0 < c ->
  (forall k x, nth_error ls k = Some x -> x <= c /\ (S k < length ls -> x = c)) ->
  (forall k x, nth_error ls k = Some x -> 0 < x) -> ls <> [] ->
  length ls = 1 + (list_sum ls - 1) / c.
Proof.
  intros ls c Hc. induction ls as [|x ls IH]; [congruence|]. intros H1 H2 _.
  destruct ls as [|y ls].
  - cbn. destruct (H1 0 x eq_refl) as [K _]. pose proof (H2 0 x eq_refl).
    rewrite Nat.add_0_r, Nat.div_small by lia. reflexivity.
  - assert (Hx : x = c) by (apply (proj2 (H1 0 x eq_refl)); cbn; lia).
    assert (IH' : length (y :: ls) = 1 + (list_sum (y :: ls) - 1) / c).
    { apply IH; [|intros k z Hk; apply (H2 (S k) z Hk)|discriminate].
      intros k z Hk. destruct (H1 (S k) z Hk) as [K1 K2]. split; [exact K1|]. cbn in *. intro. apply K2. lia. }
    pose proof (H2 1 y eq_refl) as Hy.
    change (length (x :: y :: ls)) with (S (length (y :: ls))). rewrite IH'.
    change (list_sum (x :: y :: ls)) with (x + list_sum (y :: ls)).
    assert (0 < list_sum (y :: ls)) by (cbn; lia).
    replace (x + list_sum (y :: ls) - 1) with (list_sum (y :: ls) - 1 + 1 * c) by lia.
    rewrite Nat.div_add by lia. lia.
Qed.

Lemma completion_cols_pos : forall w l, 0 < snd (completion_cols w l).
Proof. intros w l. unfold completion_cols. cbn [snd]. lia. Qed.

Lemma print_list_ok : forall w comps hl, exists t n,
  print_completion_list w comps hl = Val (t, n) /\
  let '(cw, cols) := completion_cols w comps in
  tok_texts t = map (fun c => pad c cw) comps /\
  (forall r, In r (rows t) -> length (tok_texts r) <= cols) /\
  (forall k r, nth_error (rows t) k = Some r -> S k < length (rows t) -> length (tok_texts r) = cols) /\
  length (rows t) = 1 + (length comps - 1) / cols /\
  n = length comps / cols.
Proof.
  intros w comps hl. unfold print_completion_list. pose proof (completion_cols_pos w comps) as Hc.
  destruct (completion_cols w comps) as [cw cols]. cbn [snd] in Hc.
  destruct (print_comps_ok cw cols comps 0 0 hl Hc ltac:(lia)) as [t [H1 [H2 [r [rs [H3 [H4 [H5 [H6 H7]]]]]]]]].
  rewrite Nat.sub_0_r in *. rewrite H1. cbn [rbind]. exists t, (length comps / cols). split; [reflexivity|].
  split; [exact H2|].
  assert (Hk : forall k x, nth_error (rows t) k = Some x -> length (tok_texts x) <= cols /\
                 (S k < length (rows t) -> length (tok_texts x) = cols)).
  { intros k x Hk. rewrite H3 in *. destruct k as [|k]; cbn in Hk.
    - injection Hk as <-. split; [exact H4|]. cbn. intro. apply H5. destruct rs; [cbn in *; lia|discriminate].
    - destruct (H6 k x Hk) as [K1 K2]. split; [exact K1|]. cbn. intro. apply K2. lia. }
  split; [intros x Hx; apply In_nth_error in Hx as [k Hx]; apply (Hk k x Hx)|].
  split; [intros k x K1 K2; apply (Hk k x K1); exact K2|]. split; [|reflexivity].
  destruct (total_texts t) as [r0 [rs0 [T1 T2]]]. rewrite H3 in T1. injection T1 as <- <-.
  rewrite H2, map_length in T2.
  destruct comps as [|c0 comps].
  - cbn [length] in T2. rewrite H3. cbn [length]. destruct rs as [|r1 rs]; [rewrite Nat.div_small by lia; reflexivity|].
    exfalso. assert (tok_texts r1 <> []) by (apply H7; [discriminate|left; reflexivity]).
    cbn in T2. destruct (tok_texts r1); [congruence|cbn in T2; lia].
  - rewrite <- (map_length (fun x => length (tok_texts x)) (rows t)).
    assert (Hpos : forall k x, nth_error (map (fun x => length (tok_texts x)) (rows t)) k = Some x -> 0 < x).
    { intros k x Hx. rewrite nth_error_map in Hx. rewrite H3 in Hx. destruct k as [|k]; cbn in Hx.
      - injection Hx as <-. destruct rs as [|r1 rs]; [cbn in T2; lia|]. rewrite H5 by discriminate. exact Hc.
      - destruct (nth_error rs k) as [y|] eqn:Ey; [|discriminate]. injection Hx as <-.
        assert (tok_texts y <> []).
        { apply H7; [destruct rs; [destruct k; discriminate|discriminate]|apply nth_error_In in Ey; exact Ey]. }
        destruct (tok_texts y); [congruence|cbn; lia]. }
    rewrite (rows_count _ cols Hc).
    + do 2 f_equal. rewrite H3. cbn [map list_sum fold_right]. fold (list_sum (map (fun x => length (tok_texts x)) rs)). lia.
    + intros k x Hx. rewrite map_length. rewrite nth_error_map in Hx.
      destruct (nth_error (rows t) k) as [y|] eqn:Ey; [|discriminate]. injection Hx as <-. apply Hk. exact Ey.
    + exact Hpos.
    + rewrite H3. discriminate.
Qed.

Lemma pad_padded : forall c w, padded c (pad c w) w.
Proof.
  intros c w. exists (w - length c). split; [reflexivity|]. unfold pad.
  rewrite app_length, repeat_length. lia.
Qed.

Lemma fold_max_ge : forall (l : list text) m, m <= fold_left (fun m x => Nat.max m (length x)) l m /\
  forall x, In x l -> length x <= fold_left (fun m x => Nat.max m (length x)) l m.
Proof.
  induction l as [|y l IH]; intro m; cbn [fold_left]; [split; [lia|intros x []]|].
  destruct (IH (Nat.max m (length y))) as [I1 I2]. split; [lia|].
  intros x [->|Hx]; [lia|]. apply I2. exact Hx.
Qed.

(** Candidates are narrower than the column when a column fits the terminal. *)
Lemma completion_cols_fit : forall w comps, let '(cw, cols) := completion_cols w comps in
  cw <= w -> cols * cw <= w /\ forall c, In c comps -> length c + 2 <= cw.
Proof.
  intros w comps. unfold completion_cols. cbv zeta.
  destruct (fold_max_ge comps 1) as [M1 M2].
  set (m := fold_left _ comps 1) in *. intro H.
  set (cw := 2 + w / Nat.max 1 (w / m)) in *.
  assert (Hm : m <= w).
  { destruct (Nat.le_gt_cases m w) as [|G]; [assumption|]. exfalso. unfold cw in H.
    rewrite (Nat.div_small w m G) in H. cbn [Nat.max] in H. rewrite Nat.div_1_r in H. lia. }
  assert (H1 : 1 <= w / m) by (apply Nat.div_le_lower_bound; lia).
  assert (H2 : 1 <= w / cw) by (apply Nat.div_le_lower_bound; lia).
  split.
  - rewrite Nat.max_r by exact H2. rewrite Nat.mul_comm. apply Nat.mul_div_le. lia.
  - intros c Hc. specialize (M2 c Hc).
    assert (m <= w / Nat.max 1 (w / m)); [|lia].
    rewrite Nat.max_r by exact H1. apply Nat.div_le_lower_bound; [lia|].
    rewrite Nat.mul_comm. apply Nat.mul_div_le. lia.
Qed.

Lemma print_list_spec : forall w comps hl, exists t n,
  print_completion_list w comps hl = Val (t, n) /\
  let '(cw, cols) := completion_cols w comps in
  Forall2 (fun c x => padded c x cw) comps (tok_texts t) /\
  (forall r, In r (rows t) -> length (tok_texts r) <= cols) /\
  (forall k r, nth_error (rows t) k = Some r -> S k < length (rows t) -> length (tok_texts r) = cols) /\
  length (rows t) = 1 + (length comps - 1) / cols /\
  n = length comps / cols.
Proof.
  intros w comps hl. destruct (print_list_ok w comps hl) as [t [n [H1 H2]]]. exists t, n. split; [exact H1|].
  destruct (completion_cols w comps) as [cw cols]. destruct H2 as [H2 H3]. split; [|exact H3].
  rewrite H2. clear. induction comps as [|c comps IH]; cbn [map]; constructor; [apply pad_padded|exact IH].
Qed.

Lemma rows_texts : forall t r x, In r (rows t) -> In x (tok_texts r) -> In x (tok_texts t).
Proof.
  induction t as [|k t IH]; intros r x Hr Hx; [destruct Hr as [<-|[]]; exact Hx|].
  assert (G : In x (tok_texts t) -> In x (tok_texts (k :: t))).
  { intro K. unfold tok_texts. cbn [flat_map]. apply in_or_app. right. exact K. }
  assert (D : In r (match rows t with [] => [[k]] | q :: rs => (k :: q) :: rs end) -> In x (tok_texts (k :: t))).
  { pose proof (rows_nonnil t) as N. destruct (rows t) as [|q rs] eqn:Er; [congruence|].
    intros [<-|Hi]; [|apply G, (IH r); [right; exact Hi|exact Hx]].
    unfold tok_texts in *. cbn [flat_map] in *. apply in_app_or in Hx as [Hx|Hx]; apply in_or_app; [left; exact Hx|].
    right. apply (IH q); [left; reflexivity|exact Hx]. }
  destruct k; cbn [rows] in Hr; try (apply D; exact Hr).
  destruct Hr as [<-|Hr]; [destruct Hx|]. apply G, (IH r); assumption.
Qed.

Lemma print_list_fits : forall w comps hl t n, print_completion_list w comps hl = Val (t, n) ->
  fst (completion_cols w comps) <= w -> forall r, In r (rows t) -> length (concat (tok_texts r)) <= w.
Proof.
  intros w comps hl t n H Hw r Hr. destruct (print_list_ok w comps hl) as [t' [n' [H1 H2]]].
  rewrite H in H1. injection H1 as <- <-. pose proof (completion_cols_fit w comps) as F.
  destruct (completion_cols w comps) as [cw cols]. cbn [fst] in Hw. destruct H2 as [H2 [H3 _]].
  destruct (F Hw) as [F1 F2]. specialize (H3 r Hr).
  assert (A : forall x, In x (tok_texts r) -> length x = cw).
  { intros x Hx. apply (rows_texts t r x Hr) in Hx. rewrite H2 in Hx. apply in_map_iff in Hx as [c [<- Hc]].
    specialize (F2 c Hc). unfold pad. rewrite app_length, repeat_length. lia. }
  assert (L : length (concat (tok_texts r)) = length (tok_texts r) * cw).
  { revert A. generalize (tok_texts r). intros q. induction q as [|x q IH]; intro A; [reflexivity|].
    cbn [concat]. rewrite app_length, IH by (intros y Hy; apply A; right; exact Hy).
    rewrite (A x) by (left; reflexivity). reflexivity. }
  rewrite L. nia.
Qed.
