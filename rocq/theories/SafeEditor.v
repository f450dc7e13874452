(** No panic: the editor's state and its methods. *)
From Verif Require Import Base Utf8 Utf8Proofs BufferModel UtilModel HistoryModel EditorState EditorModel
  KeymapModel MonadLemmas EditorLemmas CursorProofs Lemmas BufferSpec BufferProofs TextProofs UtilSpec UtilProofs
  HistorySpec HistoryProofs CompleteProofs EditorSpec ErrorProofs EditorProofs SuggestProofs EditorOps TabSpec TabProofs
  SafeSpec SafeProofs.
Local Open Scope monad_scope.

(** * The search prompt *)
Lemma dec_digits_nonl : forall f n acc, ~ In c_nl acc -> ~ In c_nl (dec_digits f n acc).
Proof.
  induction f as [|f IH]; intros n acc H; cbn [dec_digits]; [exact H|].
  assert (H' : ~ In c_nl ((48 + n mod 10)%N :: acc)) by (intros [K|K]; [unfold c_nl in K; lia|auto]).
  destruct (n <? 10)%N; auto.
Qed.
Lemma decimal_nonl : forall n, ~ In c_nl (decimal n).
Proof. intro n. apply dec_digits_nonl. auto. Qed.
Lemma strip_norm_app : forall a b, ~ In c_esc a -> strip_loop ANorm (a ++ b) = a ++ strip_loop ANorm b.
Proof.
  induction a as [|c a IH]; intros b H; [reflexivity|]. cbn [app strip_loop].
  destruct (N.eqb_spec c c_esc) as [->|_]; [destruct H; left; reflexivity|]. rewrite IH; [reflexivity|].
  intro K. apply H. right. exact K.
Qed.
Lemma strip_red : forall b, strip_loop ANorm (fg_str 1 ++ b) = strip_loop ANorm b.
Proof. reflexivity. Qed.
Lemma strip_green : forall b, strip_loop ANorm (fg_str 2 ++ b) = strip_loop ANorm b.
Proof. reflexivity. Qed.
Lemma search_line : forall c d x y, c = fg_str 1 \/ c = fg_str 2 -> ~ In c_nl d -> ~ In c_esc d ->
  ~ In c_nl x -> ~ In c_nl y ->
  exists r, remove_codes (handle_prompt (str "(search)'" ++ c ++ d ++ fg_reset ++ str "` (" ++ x ++ str "/" ++ y ++ str "): "))
            = str "(search)'" ++ d ++ r.
Proof.
  intros c d x y Hc Hd He Hx Hy. rewrite handle_prompt_nonl.
  - rewrite remove_codes_strip. rewrite strip_norm_app by (intro K; vm_compute in K; intuition discriminate).
    assert (E : forall b, strip_loop ANorm (c ++ b) = strip_loop ANorm b)
      by (destruct Hc as [->| ->]; [exact strip_red|exact strip_green]).
    rewrite E. rewrite strip_norm_app by exact He. eauto.
  - rewrite !in_app_iff. intros K. repeat destruct K as [K|K]; auto;
      try (destruct Hc as [->| ->]); vm_compute in K; intuition discriminate.
Qed.

Lemma split_flat : forall t, ~ In c_nl t -> split_on c_nl t = [t].
Proof.
  induction t as [|c t IH]; intro H; [reflexivity|]. cbn [split_on].
  destruct (N.eqb_spec c c_nl) as [->|_]; [destruct H; left; reflexivity|].
  rewrite IH; [reflexivity|]. intro K. apply H. right. exact K.
Qed.
Lemma index_val : forall {A} (l : list A) i, i < length l -> exists x, index l i = Val x /\ In x l.
Proof.
  intros A l i H. unfold index. destruct (nth_error l i) as [x|] eqn:E.
  - exists x. split; [reflexivity|]. eapply nth_error_In. exact E.
  - apply nth_error_None in E. lia.
Qed.

(** * Words *)
Lemma word_before_safe : forall E ig s b, cur_buf s = Val b -> ed_cursor s <= length (data b) ->
  increasing (e_words E (data b)) -> (forall x y, In (x, y) (e_words E (data b)) -> y <= length (data b)) ->
  exists w, get_word_before_cursor E ig s = Val w /\
    forall x y, w = Some (x, y) -> x <= ed_cursor s /\ x <= y /\ y <= length (data b).
Proof.
  intros E ig s b Hb Hc HI HL. unfold get_word_before_cursor, get_words_and_cursor_position. rewrite Hb. cbn [rbind].
  destruct (cpos_get_ok (e_words E (data b)) (ed_cursor s) HI) as [p [Ep Hp]]. rewrite Ep. cbn [rbind].
  eexists. split; [reflexivity|]. intros x y Hw.
  assert (K : x <= ed_cursor s /\ exists i, nth_error (e_words E (data b)) i = Some (x, y)).
  { destruct p as [i|i|i|l r]; cbn [class_is class_of] in Hp.
    - destruct Hp as [a [e [H1 H2]]]. rewrite H1 in Hw. injection Hw as <- <-. split; [lia|eauto].
    - destruct Hp as [[e H1] _]. destruct (ig && (0 <? i)) eqn:Ei; [|discriminate]. apply andb_true_iff in Ei as [_ Ei].
      apply Nat.ltb_lt in Ei. pose proof (inc_lt _ HI (i - 1) i x y _ _ ltac:(lia) Hw H1).
      pose proof (inc_pos _ HI _ _ _ Hw). split; [lia|eauto].
    - destruct Hp as [a H1]. rewrite H1 in Hw. injection Hw as <- <-. pose proof (inc_pos _ HI _ _ _ H1). split; [lia|eauto].
    - destruct l as [i|]; [|discriminate]. destruct ig; [|discriminate].
      destruct Hp as [[[a [e [H1 H2]]] _] _]. rewrite H1 in Hw. injection Hw as <- <-.
      pose proof (inc_pos _ HI _ _ _ H1). split; [lia|eauto]. }
  destruct K as [K [i Ki]]. pose proof (inc_pos _ HI _ _ _ Ki). apply nth_error_In in Ki. apply HL in Ki. lia.
Qed.

Section Safe.
  Context (ascii flat srch lay : bool) (Hfits : fits ascii flat srch).
  Notation okt := (ok_text ascii flat srch).
  Notation okc := (ok_char ascii flat srch).
  Notation bufok := (bufok ascii flat srch).

  Lemma okt_ascii : forall t, ascii = true -> okt t -> Forall (fun c => (c < 128)%N) t.
  Proof. intros t Ha H. eapply Forall_impl; [|exact H]. intros c Hc. apply Hc. exact Ha. Qed.
  Lemma okt_flat : forall t, flat = true -> okt t -> ~ In c_nl t /\ ~ In c_bs t.
  Proof.
    intros t Hf H. unfold ok_text in H. rewrite Forall_forall in H.
    split; intro K; apply H in K; destruct K as [_ [K _]]; specialize (K Hf); destruct K; congruence.
  Qed.
  Lemma okt_noesc : forall t, srch = true -> okt t -> ~ In c_esc t.
  Proof. intros t Hf H K. unfold ok_text in H. rewrite Forall_forall in H. apply H in K. apply K in Hf. congruence. Qed.

  Record G (s : ed) : Prop := mkG {
    g_share : h_share (ed_history s) = false;
    g_hist : Forall okt (texts (ed_history s));
    g_loc : forall i, ed_loc s = Some i -> i < hist_len (ed_history s);
    g_sub : Forall (fun i => i < hist_len (ed_history s)) (ed_subset s);
    g_subloc : forall i, ed_subloc s = Some i -> i < length (ed_subset s);
    g_new : bufok (ed_new s);
    g_hbuf : bufok (ed_hist s);
    g_hint : forall comps ix, ed_hint s = Some (comps, ix) ->
      Forall okt comps /\ comps <> [] /\ forall i, ix = Some i -> i < length comps;
    g_srch : ed_rev s || ed_fwd s = true -> srch = true;
    g_prompt : srch = true -> pr_vi (ed_prompt s) = None;
    g_lay : lay = true -> ed_rev s || ed_fwd s = true -> ed_loc s = None
  }.
  (** The cursor is inside the line. *)
  Definition cur (s : ed) : Prop := forall b, cur_buf s = Val b -> ed_cursor s <= length (data b).
  (** The suggestion continues the line, unless a search is on. *)
  Definition sug (s : ed) : Prop := forall g, ed_sugg s = Some g -> okt (data g) /\
    (is_search s = false -> forall b, cur_buf s = Val b -> exists r, data g = data b ++ r).
  Definition F (s : ed) : Prop := G s /\ cur s /\ sug s.

  Lemma hist_get_safe : forall s i, G s -> i < hist_len (ed_history s) ->
    exists b, hist_get (ed_history s) i = Val b /\ okt (data b).
  Proof.
    intros s i H Hi. destruct (index_val (buffers (ed_history s)) i Hi) as [b [E Hb]]. exists b. split; [exact E|].
    pose proof (g_hist s H) as K. rewrite Forall_forall in K. apply K. unfold texts. apply in_map. exact Hb.
  Qed.
  Lemma cur_safe : forall s, G s -> exists b, cur_buf s = Val b /\ okt (data b) /\ bufok (opened s b).
  Proof.
    intros s H. unfold cur_buf, opened. destruct (ed_loc s) as [i|] eqn:El.
    - destruct (ed_hvalid s).
      + exists (ed_hist s). split; [reflexivity|]. split; [apply bufok_data|]; apply g_hbuf; exact H.
      + destruct (hist_get_safe s i H (g_loc s H i El)) as [b [E Hb]]. exists b. split; [exact E|]. split; [exact Hb|].
        apply copied_ok; [apply g_hbuf; exact H|exact Hb].
    - exists (ed_new s). split; [reflexivity|]. split; [apply bufok_data|]; apply g_new; exact H.
  Qed.

  (** Parts of the state [G] does not depend on. *)
  Lemma G_same : forall s s', G s -> ed_history s' = ed_history s -> ed_loc s' = ed_loc s -> ed_subset s' = ed_subset s ->
    ed_subloc s' = ed_subloc s -> ed_new s' = ed_new s -> ed_hist s' = ed_hist s -> ed_hint s' = ed_hint s ->
    ed_rev s' = ed_rev s -> ed_fwd s' = ed_fwd s -> ed_prompt s' = ed_prompt s -> G s'.
  Proof.
    intros s s' [] E1 E2 E3 E4 E5 E6 E7 E8 E9 E10.
    constructor; rewrite ?E1, ?E2, ?E3, ?E4, ?E5, ?E6, ?E7, ?E8, ?E9, ?E10; assumption.
  Qed.
  Lemma G_store : forall s b, G s -> bufok b -> G (store b s).
  Proof. intros s b H Hb. unfold store. destruct (ed_loc s) eqn:E; destruct H; constructor; edsimp; try assumption; rewrite ?E; assumption. Qed.
  Lemma G_noloc : forall s, G s -> G (set_loc None s).
  Proof. intros s []. constructor; edsimp; try assumption; [intros; discriminate|reflexivity]. Qed.
  Lemma G_loc : forall s i, G s -> (lay = true -> is_search s = false) -> i < hist_len (ed_history s) -> G (set_loc (Some i) s).
  Proof. intros s i [] Hs Hi. constructor; edsimp; try assumption.
    - intros j E. injection E as <-. exact Hi.
    - intros Hl K. specialize (Hs Hl). unfold is_search in Hs. congruence.
  Qed.
  Lemma G_hint : forall s, G s -> G (set_hint None s).
  Proof. intros s []. constructor; edsimp; try assumption. intros; discriminate. Qed.
  Lemma G_clear : forall s, G s -> G (clear_search s).
  Proof. intros s []. unfold clear_search. constructor; edsimp; try assumption; try constructor; intros; discriminate. Qed.
  Lemma G_subset : forall s l, G s -> Forall (fun i => i < hist_len (ed_history s)) l -> forall o,
    (forall i, o = Some i -> i < length l) -> G (set_subloc o (set_subset l s)).
  Proof. intros s l [] Hl o Ho. constructor; edsimp; assumption. Qed.

  Lemma refresh_loop_lt : forall fw tg l i j, refresh_loop fw tg i l = Some j -> j < i + length l.
  Proof.
    intros fw tg l. induction l as [|x l IH]; intros i j H; cbn [refresh_loop] in H; [discriminate|]. cbn [length].
    destruct (tg <=? x); [destruct (fw || (tg =? x) || (i =? 0)); injection H as <-; lia|]. apply IH in H. lia.
  Qed.
  Lemma filter_seq_lt : forall f n, Forall (fun i => i < n) (filter f (seq 0 n)).
  Proof. intros f n. apply Forall_forall. intros x Hx. apply filter_In in Hx as [Hx _]. apply in_seq in Hx. lia. Qed.
  Lemma G_refresh : forall s fw, G s -> srch = true -> G (refresh_search fw s).
  Proof.
    intros s fw H Hs. pose proof H as []. unfold refresh_search. set (idx := search_index _ _).
    assert (Hi : Forall (fun i => i < hist_len (ed_history s)) idx) by apply filter_seq_lt.
    constructor; edsimp; try assumption.
    - intros; discriminate.
    - intros i Ei. destruct idx as [|x l] eqn:Ex; [discriminate|]. rewrite <- Ex in *.
      assert (Hl : 0 < length idx) by (rewrite Ex; cbn; lia).
      assert (Hd : forall i, (if fw then Some 0 else Some (length idx - 1)) = Some i -> i < length idx)
        by (intros k Ek; destruct fw; injection Ek as <-; lia).
      destruct (search_history_loc s) as [tg|]; [|exact (Hd _ Ei)].
      destruct (refresh_loop fw tg 0 idx) as [k|] eqn:Ek; [|exact (Hd _ Ei)].
      injection Ei as <-. apply refresh_loop_lt in Ek. exact Ek.
    - intros _. exact Hs.
    - intros _ _. reflexivity.
  Qed.
  Lemma G_refreshed : forall s, G s -> G (refreshed s).
  Proof.
    intros s H. unfold refreshed. destruct (is_search s) eqn:E; cbn [andb]; [|exact H].
    destruct (ed_changed s); [|exact H]. apply G_refresh; [exact H|]. apply (g_srch s H). exact E.
  Qed.
  Lemma freshen_same : forall s, G s -> freshen_history s = s.
  Proof. intros s H. unfold freshen_history. rewrite (g_share s H). reflexivity. Qed.

  (** * Drawing *)
  Context (E : env) (HE : ok_env ascii flat srch E).
  Let HU : forall a b, u_width (e_uni E) a <= u_width (e_uni E) (a ++ b).
  Proof. apply HE. Qed.

  Lemma suggestion_safe : forall s, G s -> exists g, current_autosuggestion s = Val g /\ sug (set_sugg g s).
  Proof.
    intros s H. unfold current_autosuggestion, sug. edsimp.
    destruct (ed_hvalid s) eqn:Ev; [exists None; split; [reflexivity|intros; discriminate]|].
    change (is_search (set_sugg ?g s)) with (is_search s). 
    destruct (is_search s) eqn:Es.
    - destruct (search_history_loc s) as [i|] eqn:El; [|exists None; split; [reflexivity|intros; discriminate]].
      assert (Hi : i < hist_len (ed_history s)).
      { unfold search_history_loc in El. destruct (ed_subloc s); [|discriminate]. apply nth_error_In in El.
        pose proof (g_sub s H) as K. rewrite Forall_forall in K. auto. }
      destruct (hist_get_safe s i H Hi) as [b [Eb Hb]]. rewrite Eb. cbn [rbind]. exists (Some b). split; [reflexivity|].
      intros g Eg. injection Eg as <-. split; [exact Hb|]. intro K. edsimp. unfold is_search in *. edsimp. congruence.
    - destruct (ed_showauto s); [|exists None; split; [reflexivity|intros; discriminate]].
      destruct (ed_loc s) as [i|] eqn:El.
      + destruct (hist_get_safe s i H (g_loc s H i El)) as [b [Eb Hb]]. rewrite Eb. cbn [rbind]. exists (Some b).
        split; [reflexivity|]. intros g Eg. injection Eg as <-. split; [exact Hb|]. intros _ b' Hb'.
        unfold cur_buf in Hb'. edsimp_in Hb'. rewrite El, Ev, Eb in Hb'. injection Hb' as <-. exists []. symmetry. apply app_nil_r.
      + pose proof (newest_match_spec (ed_history s) (Some (hist_len (ed_history s))) (data (ed_new s))) as K. cbv zeta in K.
        change (get_newest_match (ed_history s) (Some (hist_len (ed_history s))) (ed_new s)) with
          (get_newest_match (ed_history s) (Some (hist_len (ed_history s))) (buf_of (data (ed_new s)))).
        destruct (get_newest_match _ _ _) as [i|]; [|exists None; split; [reflexivity|intros; discriminate]].
        destruct K as [Hi [_ [[t [Ht Hx]] _]]]. destruct (hist_get_safe s i H Hi) as [b [Eb Hb]]. rewrite Eb. cbn [rbind].
        exists (Some b). split; [reflexivity|]. intros g Eg. injection Eg as <-. split; [exact Hb|]. intros _ b' Hb'.
        unfold cur_buf in Hb'. edsimp_in Hb'. rewrite El in Hb'. injection Hb' as <-.
        apply hist_get_texts in Eb. rewrite Ht in Eb. injection Eb as Eb. rewrite Eb in Hx. destruct Hx as [x [r Hx]]. exists (x :: r). exact Hx.
  Qed.

  Lemma display_impl_eq : forall show s, display_impl E show s =
    match search_prompt (e_uni E) s with
    | Pan p => OPanic p
    | Val (prompt, rpw) =>
      match e_size E, terminal_width (e_size E) with
      | Some w, Some tw =>
        match cur_buf s with
        | Pan p => OPanic p
        | Val b =>
          let s1 := set_cursor (clamp_cursor (ed_noeol s) (num_chars b) (ed_cursor s)) s in
          match display_render (e_uni E) show tw w prompt rpw b s1 with
          | Pan p => OPanic p
          | Val (toks, tcl) => emit E toks (set_tcl tcl s1)
          end
        end
      | _, _ => OErr EOther s
      end
    end.
  Proof.
    intros show s. unfold display_impl. rewrite bind_get. unfold bind at 1, liftr at 1.
    destruct (search_prompt (e_uni E) s) as [[prompt rpw]|p]; [|reflexivity].
    destruct (e_size E) as [w|]; [|reflexivity]. destruct (terminal_width (Some w)) as [tw|]; [|reflexivity].
    unfold bind at 1, get_cur. destruct (cur_buf s) as [b|p]; [|reflexivity].
    rewrite bind_modify, bind_get. unfold bind at 1, liftr at 1. cbv zeta.
    destruct (display_render _ _ _ _ _ _ _ _) as [[toks tcl]|p]; [|reflexivity]. rewrite bind_modify. reflexivity.
  Qed.
  Lemma display_eq : forall s, display E s =
    match current_autosuggestion (refreshed s) with
    | Pan p => OPanic p
    | Val g => display_impl E true (set_sugg g (refreshed s))
    end.
  Proof.
    intro s. unfold display. rewrite bind_get.
    assert (Hw : when (is_search s && ed_changed s) (modify (refresh_search (ed_fwd s))) s = ORet tt (refreshed s))
      by (unfold refreshed; destruct (is_search s && ed_changed s); reflexivity).
    unfold bind at 1. rewrite Hw. rewrite bind_get. unfold bind at 1, liftr.
    destruct (current_autosuggestion (refreshed s)); [|reflexivity]. rewrite bind_modify. reflexivity.
  Qed.

  Lemma tw_pos : forall n tw, terminal_width n = Some tw -> 0 < tw.
  Proof. intros [[|n]|] tw H; cbn in H; try discriminate; injection H as <-; lia. Qed.
  Lemma calc_one : forall pw x tw, calc_width pw [x] tw = pw + x.
  Proof. intros pw x tw. unfold calc_width. cbn [fold_left]. destruct tw; [reflexivity|]. rewrite Nat.mod_0_l by lia. reflexivity. Qed.
  Lemma width_firstn : forall n t, u_width (e_uni E) (firstn n t) <= u_width (e_uni E) t.
  Proof. intros n t. rewrite <- (firstn_skipn n t) at 2. apply HU. Qed.

  Lemma lines_safe : forall s show b pw, G s -> sug s -> cur_buf s = Val b -> okt (data b) ->
    exists t, print_lines (is_search s) (ed_closure s) pw 0 (length (own_lines b (ed_sugg s) show)) (num_bytes b)
      (own_lines b (ed_sugg s) show) = Val t.
  Proof.
    intros s show b pw H Hs Hb Hok. unfold own_lines. destruct (ed_sugg s) as [g|] eqn:Eg;
      [|apply print_lines_own; right; apply split_bytes].
    destruct show; [|apply print_lines_own; right; apply split_bytes].
    destruct (Hs g Eg) as [Hg Hx]. destruct (bool_dec ascii true) as [Ha|Ha].
    - apply print_lines_ascii. apply split_forall. apply okt_ascii; assumption.
    - assert (Hf : flat = true) by (destruct Hfits as [[K|K] _]; [contradiction|exact K]).
      assert (Hn : is_search s = false).
      { destruct (is_search s) eqn:Es; [|reflexivity]. destruct Ha. destruct Hfits as [_ K].
        apply K. apply (g_srch s H). exact Es. }
      destruct (Hx Hn b Hb) as [r Er]. unfold buf_lines. rewrite split_flat by (apply okt_flat; assumption).
      cbn [print_lines length]. destruct (num_bytes b =? 0); [cbn [rbind]; eauto|].
      destruct (num_bytes b <? blen (data g)); [|cbn [rbind]; eauto]. unfold num_bytes. rewrite Er, bsplit_app. cbn [rbind]. eauto.
  Qed.

  Lemma widths_safe : forall s b prompt rpw tw, G s -> sug s -> cur_buf s = Val b -> okt (data b) -> 0 < tw ->
    ed_cursor s <= length (data b) -> search_prompt (e_uni E) s = Val (prompt, rpw) ->
    calc_width (if is_search s then rpw else last_prompt_line_width (e_uni E) prompt)
             (map (u_width (e_uni E)) (split_on c_nl (upto b (ed_sugg s) (ed_cursor s)))) tw
    <= calc_width (last_prompt_line_width (e_uni E) prompt) (map (u_width (e_uni E)) (split_on c_nl (whole b (ed_sugg s)))) tw.
  Proof.
    intros s b prompt rpw tw H Hs Hb Hok Htw Hc Hp. destruct (is_search s) eqn:Es.
    - pose proof (g_srch s H Es) as Hsr. destruct Hfits as [_ Hfit]. destruct (Hfit Hsr) as [Ha Hf].
      destruct HE as [[_ HW] _]. destruct (HW Hsr) as [H0 [H9 Hadd]].
      assert (Hw : rpw = 9 /\ 9 + u_width (e_uni E) (data b) <= last_prompt_line_width (e_uni E) prompt).
      { unfold search_prompt in Hp. rewrite Es, Hb in Hp. unfold pr_prefix in Hp. rewrite (g_prompt s H Hsr) in Hp.
        rewrite H0 in Hp. cbn [app] in Hp.
        set (hc := match ed_subset s with [] => (0, fg_str 1) | _ => (match ed_subloc s with Some p => p | None => 0 end + 1, fg_str 2) end) in Hp.
        assert (Hcol : snd hc = fg_str 1 \/ snd hc = fg_str 2) by (unfold hc; destruct (ed_subset s); auto).
        destruct hc as [hp col]. cbn [snd] in Hcol. cbn [rbind] in Hp. injection Hp as Hp1 Hp2. split; [lia|].
        unfold last_prompt_line_width. rewrite <- Hp1.
        destruct (search_line col (data b) (decimal (N.of_nat hp)) (decimal (N.of_nat (length (ed_subset s)))) Hcol) as [r Hr];
          [apply okt_flat; assumption|apply okt_noesc; assumption|apply decimal_nonl|apply decimal_nonl|].
        match goal with |- _ <= u_width _ ?x => replace x with (str "(search)'" ++ data b ++ r) by (symmetry; exact Hr) end.
        rewrite app_assoc. pose proof (HU (str "(search)'" ++ data b) r) as K. rewrite Hadd in K; [lia|].
        apply Forall_app. split; [vm_compute; repeat constructor; discriminate|].
        apply Forall_forall. intros c Hin. pose proof Hok as K2. unfold ok_text in K2. rewrite Forall_forall in K2.
        destruct (K2 c Hin) as [C1 [C2 C3]]. repeat split; [apply C1; exact Ha|apply C2; exact Hf|apply C3; exact Hsr]. }
      destruct Hw as [-> Hw].
      assert (Hflat : forall t, okt t -> split_on c_nl t = [t]) by (intros t Ht; apply split_flat; apply okt_flat; assumption).
      unfold upto, whole. destruct (ed_sugg s) as [g|] eqn:Eg.
      + destruct (Hs g Eg) as [Hg _]. destruct (ed_cursor s <? num_chars g).
        * rewrite (Hflat (firstn _ (data g))) by (apply okt_firstn; exact Hg). rewrite (Hflat (data g) Hg). cbn [map].
          rewrite !calc_one. pose proof (width_firstn (ed_cursor s) (data g)). lia.
        * rewrite (Hflat (firstn _ (data b))) by (apply okt_firstn; exact Hok). rewrite (Hflat (data g) Hg). cbn [map].
          rewrite !calc_one. pose proof (width_firstn (ed_cursor s) (data b)). lia.
      + rewrite (Hflat (firstn _ (data b))) by (apply okt_firstn; exact Hok). rewrite (Hflat (data b) Hok). cbn [map].
        rewrite !calc_one. pose proof (width_firstn (ed_cursor s) (data b)). lia.
    - apply calc_mono; [|exact Htw|lia].
      assert (Hpre : forall n t, below (map (u_width (e_uni E)) (split_on c_nl (firstn n t))) (map (u_width (e_uni E)) (split_on c_nl t))).
      { intros n t. rewrite <- (firstn_skipn n t) at 2. apply widths_below. exact HU. }
      unfold upto, whole. destruct (ed_sugg s) as [g|] eqn:Eg; [|apply Hpre].
      destruct (Hs g Eg) as [Hg Hx]. destruct (Hx Es b Hb) as [r Er].
      destruct (ed_cursor s <? num_chars g); [apply Hpre|].
      rewrite <- (firstn_skipn (ed_cursor s) (data b)) in Er. rewrite Er, <- app_assoc. apply widths_below. exact HU.
  Qed.

  Lemma clamp_in : forall e n c, clamp_cursor e n c <= n.
  Proof. intros e n c. eapply clamp_le. apply clamp_idem. Qed.

  Lemma display_impl_safe : forall show s, G s -> sug s -> safe (display_impl E show) s (fun _ => F).
  Proof.
    intros show s H Hs. apply wp_display_impl.
    - intros b tcl cb tty Hb. split; [|split].
      + eapply G_same; [exact H|reflexivity..].
      + intros b' Hb'. rewrite cur_buf_shown in Hb'. rewrite Hb in Hb'. injection Hb' as <-. unfold shown. edsimp. apply clamp_in.
      + intros g Hg. apply Hs. exact Hg.
    - auto.
    - intros p Hp. rewrite display_impl_eq in Hp.
      destruct (cur_safe s H) as [b [Hb [Hok _]]].
      destruct (search_prompt (e_uni E) s) as [[prompt rpw]|q] eqn:Ep.
      2:{ unfold search_prompt in Ep. rewrite Hb in Ep. destruct (is_search s); [|discriminate]. destruct (ed_subset s); discriminate. }
      destruct (e_size E) as [w|]; [|discriminate]. destruct (terminal_width (Some w)) as [tw|] eqn:Et; [|discriminate].
      rewrite Hb in Hp. cbv zeta in Hp.
      set (s1 := set_cursor (clamp_cursor (ed_noeol s) (num_chars b) (ed_cursor s)) s) in *.
      assert (H1 : G s1) by (eapply G_same; [exact H|reflexivity..]).
      assert (Hc : ed_cursor s1 <= length (data b)) by (unfold s1; edsimp; apply clamp_in).
      destruct (display_render (e_uni E) show tw w prompt rpw b s1) as [[toks tcl]|q] eqn:Er.
      { unfold emit in Hp. destruct (e_wok E); discriminate. }
      injection Hp as <-. eapply render_safe; [| | | |exact Er].
      + eapply tw_pos. exact Et.
      + exact Hc.
      + apply widths_safe; auto. eapply tw_pos. exact Et.
      + apply lines_safe; auto.
  Qed.
  Lemma display_safe : forall s, G s -> safe (display E) s (fun _ => F).
  Proof.
    intros s H. unfold safe, wp. rewrite display_eq. pose proof (G_refreshed s H) as H1.
    destruct (suggestion_safe (refreshed s) H1) as [g [Eg Hg]]. rewrite Eg. apply display_impl_safe; [|exact Hg].
    eapply G_same; [exact H1|reflexivity..].
  Qed.
End Safe.
