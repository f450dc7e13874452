(** A terminal that scrolls shows the last rows of one that does not. *)
From Verif Require Import Base Utf8 BufferModel UtilModel UtilSpec UtilProofs HistoryModel EditorState EditorModel
  MonadLemmas EditorLemmas CursorProofs TextProofs BufferSpec BufferProofs CompleteProofs SuggestProofs Tests
  ScreenSpec ScreenProofs GridSpec GridProofs FreshSpec FreshProofs ScrollSpec.
Local Open Scope monad_scope.

Section Scroll.
  Context (W Ht : nat) (cw : char -> nat) (HW : 0 < W) (HH : 0 < Ht).
  Notation feeds := (feeds W cw).
  Notation shows := (shows W cw).
  Notation paints := (paints W cw).
  Notation ffeed := (ffeed W Ht cw).
  Notation ffeeds := (ffeeds W Ht cw).
  Notation fshows := (fshows W Ht cw).
  Notation nar := (narrow cw).

  (** [F] shows the rows of [g] from row [o] on. *)
  Record sim (o : nat) (T : term) (g : screen) (F : fterm) : Prop := {
    sm_row : t_row T = o + f_row F;
    sm_in : f_row F < Ht;
    sm_col : t_col T = f_col F;
    sm_st : t_st T = f_st F;
    sm_screen : forall i j, i < Ht -> f_screen F i j = g (o + i) j;
    sm_below : forall i j, o + Ht <= i -> g i j = None
  }.
  Definition down (o : nat) (T : term) : nat := Nat.max o (t_row T - (Ht - 1)).

  Lemma ffeeds_app : forall F a b, ffeeds F (a ++ b) = ffeeds (ffeeds F a) b.
  Proof. intros. apply fold_left_app. Qed.

  (** A line feed *)
  Lemma sim_linefeed : forall o r k0 k l st g F, sim o (mkTerm r k0 l st) g F ->
    sim (Nat.max o (S r - (Ht - 1))) (mkTerm (S r) k l Ground) g (linefeed Ht F k).
  Proof.
    intros o r k0 k l st g F [H1 H2 H3 H4 H5 H6]. cbn [t_row t_col t_st] in *. unfold linefeed.
    destruct (Nat.ltb_spec (S (f_row F)) Ht) as [K|K].
    - replace (Nat.max o (S r - (Ht - 1))) with o by lia. constructor; cbn [t_row t_col t_st f_row f_col f_st f_screen]; auto; lia.
    - replace (Nat.max o (S r - (Ht - 1))) with (S o) by lia. constructor; cbn [t_row t_col t_st f_row f_col f_st f_screen]; auto; try lia.
      + intros i j Hi. destruct (Nat.ltb_spec (S i) Ht) as [J|J]; [rewrite H5 by exact J; f_equal; lia|]. symmetry. apply H6. lia.
      + intros i j Hi. apply H6. lia.
  Qed.
  Lemma put_shift : forall o g h r k c, r < Ht -> (forall i j, i < Ht -> h i j = g (o + i) j) ->
    forall i j, i < Ht -> put h r k c i j = put g (o + r) k c (o + i) j.
  Proof.
    intros o g h r k c Hr H i j Hi. unfold put. destruct (Nat.eqb_spec i r) as [->|K].
    - rewrite Nat.eqb_refl. destruct (j =? k); cbn [andb]; [reflexivity|apply H; exact Hi].
    - destruct (Nat.eqb_spec (o + i) (o + r)); [lia|]. cbn [andb]. apply H. exact Hi.
  Qed.
  Lemma wipe_shift : forall o g h n r k, (forall i j, i < Ht -> h i j = g (o + i) j) ->
    forall i j, i < Ht -> wipe n r k h i j = wipe n (o + r) k g (o + i) j.
  Proof.
    intros o g h n r k H i j Hi. unfold wipe.
    assert (E1 : (o + r <? o + i) = (r <? i)) by (destruct (Nat.ltb_spec r i), (Nat.ltb_spec (o + r) (o + i)); auto; lia).
    assert (E2 : (o + i <? o + r) = (i <? r)) by (destruct (Nat.ltb_spec i r), (Nat.ltb_spec (o + i) (o + r)); auto; lia).
    assert (E3 : (o + i =? o + r) = (i =? r)) by (destruct (Nat.eqb_spec i r), (Nat.eqb_spec (o + i) (o + r)); auto; lia).
    rewrite E1, E2, E3. rewrite H by exact Hi. reflexivity.
  Qed.
  Lemma wipe_none : forall n r k g i j, g i j = None -> wipe n r k g i j = None.
  Proof. intros n r k g i j H. unfold wipe. rewrite H. repeat match goal with |- context [if ?b then _ else _] => destruct b end; reflexivity. Qed.

  (** One character in the ground state *)
  Lemma sim_char : forall o T g F c, sim o T g F -> t_st T = Ground -> c <> c_esc ->
    sim (down o (feed W cw T c)) (feed W cw T c) (paint W cw T g c) (ffeed F c) /\ t_row T <= t_row (feed W cw T c).
  Proof.
    intros o [r k l st] g F c S HT Hc. pose proof S as [H1 H2 H3 H4 H5 H6]. cbn [t_row t_col t_st] in *. subst st.
    unfold paint. cbn [t_st t_log]. unfold feed, ScrollSpec.ffeed. cbn [t_st t_row t_col t_log]. rewrite <- H4.
    destruct (N.eqb_spec c c_esc) as [K|_]; [contradiction|].
    assert (Hk : Nat.max o (r - (Ht - 1)) = o) by lia.
    destruct (N.eqb c c_cr).
    { cbn [t_log]. rewrite skipn_all. split; [|cbn; lia]. unfold down. cbn [t_row]. rewrite Hk. constructor; cbn; auto. }
    destruct (N.eqb c c_nl).
    { cbn [t_log]. rewrite skipn_all. split; [|cbn; lia]. unfold down. cbn [t_row]. rewrite H3. eapply sim_linefeed. exact S. }
    destruct (N.eqb c 8).
    { cbn [t_log]. rewrite skipn_all. split; [|cbn; lia]. unfold down. cbn [t_row]. rewrite Hk, H3. constructor; cbn; auto. }
    destruct (N.eqb c c_tab).
    { cbn [t_log]. rewrite skipn_all. split; [|cbn; lia]. unfold down. cbn [t_row]. rewrite Hk, H3. constructor; cbn; auto. }
    destruct ((c <? 32) || (c =? 127))%N.
    { cbn [t_log]. rewrite skipn_all. split; [|cbn; lia]. unfold down. cbn [t_row]. rewrite Hk. constructor; cbn; auto. }
    unfold draw, fdraw. destruct (cw c =? 0).
    { cbn [t_log]. rewrite skipn_all. split; [|cbn; lia]. unfold down. cbn [t_row]. rewrite Hk. constructor; cbn; auto. }
    cbn [t_row t_col t_log]. rewrite H3.
    assert (Hput : forall o' r' k' F', sim o' (mkTerm r' k' l Ground) g F' ->
      sim o' (mkTerm r' (k' + cw c) (l ++ [(r', k', c)]) Ground) (put g r' k' c) (mkF (f_row F') (f_col F' + cw c) (put (f_screen F') (f_row F') (f_col F') c) Ground)).
    { intros o' r' k' F' [J1 J2 J3 J4 J5 J6]. cbn [t_row t_col t_st] in *. constructor; cbn [t_row t_col t_st f_row f_col f_st f_screen]; auto.
      - intros i j Hi. rewrite J1, J3. apply put_shift; assumption.
      - intros i j Hi. unfold put. destruct (Nat.eqb_spec i r'); [lia|]. cbn [andb]. apply J6. exact Hi. }
    destruct (W <? f_col F + cw c).
    - cbn [t_log]. rewrite skipn_app, skipn_all, Nat.sub_diag. cbn [app skipn]. split; [|cbn; lia]. unfold down. cbn [t_row].
      apply Hput. eapply sim_linefeed. exact S.
    - cbn [t_log]. rewrite skipn_app, skipn_all, Nat.sub_diag. cbn [app skipn]. split; [|cbn; lia]. unfold down. cbn [t_row]. rewrite Hk.
      apply (Hput o r (f_col F) F). constructor; cbn; auto.
  Qed.

  (** Text in which the cursor is never moved up or by rows. *)
  Inductive level : text -> Prop :=
  | level_nil : level []
  | level_char : forall c t, c <> c_esc -> level t -> level (c :: t)
  | level_seq : forall p f t, Forall param p -> ((64 <=? f) && (f <=? 126))%N = true -> f <> ch "A" -> f <> ch "B" -> f <> ch "H" -> level t ->
      level (csi (p ++ [f]) ++ t).
  Lemma level_app : forall a b, level a -> level b -> level (a ++ b).
  Proof.
    intros a b Ha Hb. induction Ha as [|c t Hc H IH|p f t Hp Hf H1 H2 H3 H IH]; cbn [app]; [exact Hb|constructor; assumption|].
    rewrite <- app_assoc. constructor; assumption.
  Qed.

  Lemma ffeeds_params : forall p r k h q, Forall param p ->
    ffeeds (mkF r k h (Control q)) p = mkF r k h (Control (q ++ p)).
  Proof.
    induction p as [|c p IH]; intros r k h q H; [rewrite app_nil_r; reflexivity|]. inversion H as [|? ? Hc Hp]; subst.
    change (ffeeds (mkF r k h (Control q)) (c :: p)) with (ffeeds (ffeed (mkF r k h (Control q)) c) p).
    unfold ScrollSpec.ffeed. cbn [f_st f_row f_col f_screen].
    replace ((64 <=? c) && (c <=? 126))%N with false by (symmetry; apply andb_false_intro1; apply N.leb_gt; unfold param in Hc; lia).
    rewrite IH by exact Hp. rewrite <- app_assoc. reflexivity.
  Qed.
  Lemma ffeeds_csi : forall r k h p f, Forall param p -> ((64 <=? f) && (f <=? 126))%N = true ->
    ffeeds (mkF r k h Ground) (csi (p ++ [f])) = fcontrol W Ht (mkF r k h (Control p)) p f.
  Proof.
    intros r k h p f Hp Hf. unfold csi.
    change (ffeeds (mkF r k h Ground) (c_esc :: ch "[" :: p ++ [f])) with (ffeeds (mkF r k h (Control [])) (p ++ [f])).
    rewrite ffeeds_app, ffeeds_params by exact Hp. cbn [app]. unfold ScrollSpec.ffeeds. cbn [fold_left]. unfold ScrollSpec.ffeed. cbn [f_st]. rewrite Hf. reflexivity.
  Qed.

  Lemma sim_csi : forall o T g F p f, sim o T g F -> t_st T = Ground -> Forall param p -> ((64 <=? f) && (f <=? 126))%N = true ->
    (f <> ch "A" \/ o <= t_row T - N.to_nat (N.max 1 (number p))) -> f <> ch "B" -> f <> ch "H" ->
    sim o (feeds T (csi (p ++ [f]))) (paints T g (csi (p ++ [f]))) (ffeeds F (csi (p ++ [f]))) /\
    (f <> ch "A" -> t_row (feeds T (csi (p ++ [f]))) = t_row T) /\ t_st (feeds T (csi (p ++ [f]))) = Ground.
  Proof.
    intros o [r k l st] g [fr fk fs fst] p f S HT Hp Hf HA HB HHome. pose proof S as [H1 H2 H3 H4 H5 H6].
    cbn [t_row t_col t_st f_row f_col f_st f_screen] in *. subst st. subst fst. subst fk.
    rewrite (feeds_csi W cw HW), (paints_csi W cw HW), ffeeds_csi by assumption. unfold control, fcontrol. cbn [t_row t_col t_log f_row f_col f_screen].
    destruct (N.eqb_spec f (ch "A")) as [->|_].
    { split; [|split; [congruence|reflexivity]]. destruct HA as [HA|HA]; [congruence|]. constructor; cbn; auto; lia. }
    destruct (N.eqb_spec f (ch "B")) as [->|_]; [congruence|].
    destruct (N.eqb_spec f (ch "C")) as [->|_]. { split; [|split; reflexivity]. constructor; cbn; auto. }
    destruct (N.eqb_spec f (ch "D")) as [->|_]. { split; [|split; reflexivity]. constructor; cbn; auto. }
    destruct (N.eqb_spec f (ch "H")) as [->|_]; [congruence|].
    destruct (N.eqb_spec f (ch "J")) as [->|_]; (split; [|split; reflexivity]); constructor; cbn [t_row t_col t_st f_row f_col f_st f_screen]; auto.
    - intros i j Hi. rewrite H1. apply wipe_shift; assumption.
    - intros i j Hi. apply wipe_none. apply H6. exact Hi.
  Qed.

  Lemma sim_level : forall t, level t -> forall o T g F, sim o T g F -> t_st T = Ground ->
    sim (down o (feeds T t)) (feeds T t) (paints T g t) (ffeeds F t) /\ t_row T <= t_row (feeds T t) /\ t_st (feeds T t) = Ground.
  Proof.
    induction 1 as [|c t Hc H IH|p f t Hp Hf H1 H2 H3 H IH]; intros o T g F S HT.
    - change (feeds T []) with T. split; [|split; [lia|exact HT]]. cbn [GridSpec.paints]. change (ffeeds F []) with F. unfold down.
      replace (Nat.max o (t_row T - (Ht - 1))) with o by (destruct S; lia). exact S.
    - change (feeds T (c :: t)) with (feeds (feed W cw T c) t). change (ffeeds F (c :: t)) with (ffeeds (ffeed F c) t). cbn [GridSpec.paints].
      destruct (sim_char o T g F c S HT Hc) as [K1 K2]. destruct (feed_ground W cw T c HT Hc) as [K3 _].
      destruct (IH _ _ _ _ K1 K3) as [K4 [K5 K6]]. split; [|split; [lia|exact K6]].
      replace (down o (feeds (feed W cw T c) t)) with (down (down o (feed W cw T c)) (feeds (feed W cw T c) t)) by (unfold down; lia). exact K4.
    - rewrite feeds_app, paints_app, ffeeds_app. destruct (sim_csi o T g F p f S HT Hp Hf (or_introl H1) H2 H3) as [K1 [K2 K3]]. specialize (K2 H1).
      destruct (IH _ _ _ _ K1 K3) as [K4 [K5 K6]]. split; [exact K4|]. split; [lia|exact K6].
  Qed.

  (** * A redraw *)
  Definition levels (l : list tok) : Prop := level (render_toks l).
  Lemma levels_app : forall a b, levels a -> levels b -> levels (a ++ b).
  Proof. intros a b Ha Hb. unfold levels, render_toks. rewrite flat_map_app. apply level_app; assumption. Qed.
  Lemma levels_cons : forall k l, level (render_tok k) -> levels l -> levels (k :: l).
  Proof. intros k l Hk Hl. apply (level_app (render_tok k)); assumption. Qed.
  Lemma styled_level : forall t v, styled nar t v -> level t.
  Proof.
    induction 1 as [|c t v Hc H IH|p t v Hp H IH]; [constructor| |].
    - constructor; [|exact IH]. intros ->. destruct Hc as [K _]. unfold c_esc in K. lia.
    - replace (c_esc :: ch "[" :: p ++ ch "m" :: t) with (csi (p ++ [ch "m"]) ++ t) by (unfold csi; cbn [app]; rewrite <- app_assoc; reflexivity).
      apply level_seq; [exact Hp|reflexivity|discriminate|discriminate|discriminate|exact IH].
  Qed.
  Lemma level_csi : forall p f, Forall param p -> ((64 <=? f) && (f <=? 126))%N = true -> f <> ch "A" -> f <> ch "B" -> f <> ch "H" -> level (csi (p ++ [f])).
  Proof. intros p f H1 H2 H3 H4 H5. rewrite <- (app_nil_r (csi (p ++ [f]))). apply level_seq; try assumption. constructor. Qed.
  Lemma level_move : forall n f, ((64 <=? f) && (f <=? 126))%N = true -> f <> ch "A" -> f <> ch "B" -> f <> ch "H" -> level (csi (decimal n ++ [f])).
  Proof. intros n f H1 H2 H3 H4. apply level_csi; try assumption. apply (digit_param W cw HW), decimal_digits. Qed.
  Lemma level_tok : forall k, match k with TLeft _ | TRight _ | TCRLF | TCR | TFgReset | TFg _ | TModes | TClearAfter => True | _ => False end -> level (render_tok k).
  Proof.
    intros k H. destruct k; try contradiction; cbn [render_tok].
    - change (level (csi (str "?1000" ++ [ch "l"]) ++ csi (str "?1" ++ [ch "l"]))). apply level_app; apply level_csi; try reflexivity; try discriminate; repeat constructor; vm_compute; discriminate.
    - apply (level_move n (ch "D")); [reflexivity|discriminate..].
    - apply (level_move n (ch "C")); [reflexivity|discriminate..].
    - repeat constructor; discriminate.
    - repeat constructor; discriminate.
    - change (level (csi ([] ++ [ch "J"]))). apply level_csi; try reflexivity; try discriminate. constructor.
    - unfold fg_str. change (str "m") with [ch "m"]. rewrite app_assoc.
      apply level_csi; [|reflexivity|discriminate..]. apply (color_params W cw HW). repeat constructor; vm_compute; discriminate.
    - apply (level_csi (str "39") (ch "m")); [repeat constructor; vm_compute; discriminate|reflexivity|discriminate..].
  Qed.
  Lemma levels_one : forall k, match k with TLeft _ | TRight _ | TCRLF | TCR | TFgReset | TFg _ | TModes | TClearAfter => True | _ => False end -> levels [k].
  Proof. intros k H. apply levels_cons; [apply level_tok; exact H|constructor]. Qed.
  Lemma print_level : forall srch clos ind lines i k rem toks,
    (forall f x, clos = Some f -> Forall nar x -> styled nar (f x) x) -> Forall (Forall nar) lines ->
    print_lines srch clos ind i k rem lines = Val toks -> levels toks.
  Proof.
    intros srch clos ind lines. induction lines as [|line lines IH]; intros i k rem toks Hcl Hn Hp; cbn [print_lines] in Hp.
    { injection Hp as <-. constructor. }
    inversion Hn as [|? ? Hl Hls]; subst.
    assert (Hsty : forall x, Forall nar x -> level x) by (intros x Hx; eapply styled_level, (styled_id cw); exact Hx).
    assert (Hc : forall x, Forall nar x -> level (match clos with Some f => f x | None => x end)).
    { intros x Hx. destruct clos as [f|]; [eapply styled_level, (Hcl f x eq_refl Hx)|apply Hsty; exact Hx]. }
    assert (Hpre : levels (if 0 <? i then [TRight (u16_of ind)] else [])).
    { destruct (0 <? i); [apply levels_one; exact I|constructor]. }
    assert (Hfin : levels (if S i <? k then [TCRLF] else [])).
    { destruct (S i <? k); [apply levels_one; exact I|constructor]. }
    assert (Hfg : forall b : bool, levels (if b then [TFg 3] else []) /\ levels (if b then [] else [TFg 3])).
    { assert (K : levels [TFg 3]) by (apply levels_one; exact I). intros [|]; split; try exact K; constructor. }
    destruct (rem =? 0).
    - destruct (print_lines srch clos ind (S i) k 0 lines) as [r|] eqn:Er; [|discriminate]. injection Hp as <-.
      apply levels_app; [exact Hpre|]. apply levels_cons; [apply Hsty; exact Hl|]. apply levels_app; [exact Hfin|eapply IH; eassumption].
    - destruct (rem <? blen line).
      + destruct (bsplit line rem) as [[a b]|] eqn:Eb; [|discriminate]. cbn [rbind] in Hp.
        destruct (print_lines srch clos ind (S i) k 0 lines) as [r|] eqn:Er; [|discriminate]. injection Hp as <-.
        rewrite (bsplit_app _ _ _ _ Eb) in Hl. apply Forall_app in Hl as [Ha Hb].
        apply levels_app; [exact Hpre|]. apply levels_app; [apply Hfg|]. apply levels_cons; [apply Hc, Ha|].
        apply levels_app; [apply Hfg|]. apply levels_cons; [apply Hsty, Hb|]. apply levels_app; [exact Hfin|eapply IH; eassumption].
      + destruct (print_lines srch clos ind (S i) k (rem - blen line) lines) as [r|] eqn:Er; [|discriminate]. injection Hp as <-.
        apply levels_app; [exact Hpre|]. apply levels_app; [apply Hfg|]. apply levels_cons; [apply Hc, Hl|].
        apply levels_app; [exact Hfin|eapply IH; eassumption].
  Qed.

  Lemma render_level : forall U w prompt rpw buf s toks tcl pv t,
    display_render U true W w prompt rpw buf s = Val (toks, tcl) -> ed_hint s = None ->
    drawable W cw U prompt pv t s ->
    t = match ed_sugg s with Some g => data g | None => data buf end ->
    exists up body up2 col, toks = TModes :: up ++ TCR :: TClearAfter :: body ++ up2 ++ col /\ levels body /\ levels col /\
      (up = [] /\ ed_tcl s <= 1 \/ up = [TUp (u16_of (ed_tcl s) - 1)] /\ 1 < ed_tcl s) /\ (up2 = [] \/ exists n, up2 = [TUp n]) /\
      (forall T, t_st T = Ground -> t_row (shows T col) = t_row T) /\
      forall r lg, t_row (shows (mkTerm r 0 lg Ground) body) = r + endn W (length pv) 0 (pv ++ t) / W.
  Proof.
    intros U w prompt rpw buf s toks tcl pv t H Hh D Et. unfold display_render in H. rewrite Hh in H.
    rewrite (prompt_width W cw HW U prompt pv (dr_measure _ _ _ _ _ _ _ D) (dr_prompt _ _ _ _ _ _ _ D)) in H.
    destruct (BufferModel.buf_width U buf) as [own|] eqn:E1; [|discriminate]. cbn [rbind] in H.
    assert (E2 : exists bw, match ed_sugg s with Some g => BufferModel.buf_width U g | None => Val own end = Val bw /\ bw = map (u_width U) (split_on c_nl t)).
    { subst t. destruct (ed_sugg s) as [g|].
      - destruct (BufferModel.buf_width U g) as [bw|] eqn:E; [|discriminate]. exists bw. split; [reflexivity|apply width_Val; exact E].
      - exists own. split; [reflexivity|apply width_Val; exact E1]. }
    destruct E2 as [bw [E2 Ebw]]. rewrite E2 in H. cbn [rbind] in H.
    match type of H with rbind ?m _ = _ => destruct m as [tcw|]; [|discriminate] end. cbn [rbind] in H. cbv zeta in H.
    match type of H with context [calc_width (length pv) bw W] => idtac end.
    rewrite Ebw, (calc_endn W cw HW (length pv) U (dr_measure _ _ _ _ _ _ _ D) t (dr_text _ _ _ _ _ _ _ D)) in H.
    set (total := endn W (length pv) (length pv) t) in *.
    destruct (if 1 <? ed_tcl s then _ else _) as [t_up|] eqn:Eup in H; [|discriminate]. cbn [rbind] in H.
    match type of H with rbind (print_lines _ _ _ _ (length ?l) _ _) _ = _ => replace l with (split_on c_nl t) in H by (subst t; destruct (ed_sugg s); reflexivity) end.
    set (lines := split_on c_nl t) in *.
    destruct (print_lines (is_search s) (ed_closure s) (length pv) 0 (length lines) (num_bytes buf) lines) as [t_lines|] eqn:Elines; [|discriminate].
    cbn [rbind] in H.
    match type of H with rbind ?m _ = _ => destruct m as [up2|] eqn:Eup2; [|discriminate] end. cbn [rbind] in H.
    set (reset := match ed_sugg s with Some _ => [TFgReset] | None => if is_search s then [TFgReset] else [] end) in *.
    set (eol := if total mod W =? 0 then [TCRLF] else []) in *.
    match type of H with context [up2 ++ ?c] => set (col := c) in * end.
    injection H as <- _.
    exists t_up, (TStr prompt :: t_lines ++ reset ++ eol), up2, col.
    split; [cbn [app]; rewrite <- ?app_assoc; reflexivity|].
    assert (Hre : reset = [TFgReset] \/ reset = []) by (unfold reset; destruct (ed_sugg s); [|destruct (is_search s)]; auto).
    split.
    { apply levels_cons; [cbn [render_tok]; eapply styled_level, (dr_prompt _ _ _ _ _ _ _ D)|].
      apply levels_app; [eapply print_level; [| |exact Elines]|].
      { intros f y Hf. apply (dr_closure _ _ _ _ _ _ _ D f y Hf). }
      { apply split_narrow. apply (dr_text _ _ _ _ _ _ _ D). }
      apply levels_app; [destruct Hre as [-> | ->]; [apply levels_one; exact I|constructor]|].
      unfold eol. destruct (_ =? 0); [apply levels_one; exact I|constructor]. }
    split.
    { unfold col. destruct (_ <? _)%Z; [apply levels_one; exact I|]. destruct (_ <? _)%Z; [apply levels_one; exact I|constructor]. }
    split.
    { destruct (Nat.ltb_spec 1 (ed_tcl s)) as [K|K].
      - destruct (u16_of (ed_tcl s) =? 0)%N; [discriminate|]. injection Eup as <-. right. split; [reflexivity|exact K].
      - injection Eup as <-. left. split; [reflexivity|exact K]. }
    split.
    { destruct (_ <? _) in Eup2; [injection Eup2 as <-; right; eexists; reflexivity|].
      destruct (_ <? _) in Eup2; [discriminate|injection Eup2 as <-; left; reflexivity]. }
    split.
    { intros [r k lg st] HT. cbn [t_st] in HT. subst st. unfold col. destruct (_ <? _)%Z; [rewrite shows_one, (feeds_left W cw HW); reflexivity|].
      destruct (_ <? _)%Z; [rewrite shows_one, (feeds_right W cw HW); reflexivity|reflexivity]. }
    intros r lg.
    assert (Hpv : endn W (length pv) 0 pv = length pv) by (rewrite (endn_flat W cw HW) by (eapply styled_narrow, (dr_prompt _ _ _ _ _ _ _ D)); reflexivity).
    assert (Htotal : endn W (length pv) 0 (pv ++ t) = total) by (rewrite endn_app, Hpv; reflexivity).
    assert (Hpos : 0 < total).
    { unfold total. pose proof (endn_ge W cw HW (length pv) t (length pv)) as Hg. destruct pv as [|c0 pv0]; [|cbn [length] in *; lia].
      pose proof (dr_some _ _ _ _ _ _ _ D) as Hs. pose proof (dr_lines _ _ _ _ _ _ _ D) as Hl. cbn [app length] in *. clear Et. clearbody lines. destruct t as [|c t0]; [congruence|].
      rewrite endn_cons in *. unfold ostep in *. destruct (N.eqb_spec c c_nl) as [->|_]; [exfalso; specialize (Hl (or_introl eq_refl)); lia|].
      pose proof (endn_ge W cw HW 0 t0 1). lia. }
    assert (Hlen : 1 < length lines -> 0 < length pv < W).
    { intro K. apply (dr_lines _ _ _ _ _ _ _ D). rewrite <- (glue_split c_nl t). fold lines. destruct lines as [|l1 [|l2 ls]]; cbn in K; try lia. apply in_glue. }
    rewrite shows_str. change (mkTerm r 0 lg Ground) with (past W r 0 lg).
    rewrite (past_styled W cw HW r (length pv) prompt pv (dr_prompt _ _ _ _ _ _ _ D)), Hpv, shows_app.
    rewrite (print_shows W cw HW r (length pv) (ed_closure s) (fun f x0 => dr_closure _ _ _ _ _ _ _ D f x0) _ _ _ _ _ _ Elines
      ltac:(apply split_on_nonempty) eq_refl ltac:(apply split_narrow; apply (dr_text _ _ _ _ _ _ _ D)) Hlen (dr_width _ _ _ _ _ _ _ D)
      (past W r (length pv) (lg ++ cells W r (length pv) 0 pv)) (length pv) _ ltac:(intro K; apply Hlen in K; lia) eq_refl).
    unfold lines. rewrite glue_split. fold total. rewrite shows_app, Htotal.
    match goal with |- t_row (shows (shows ?X _) _) = _ => set (P := X) end.
    assert (Hr : shows P reset = P).
    { destruct Hre as [-> | ->]; [rewrite shows_one; apply past_fgreset; exact HW|reflexivity]. }
    rewrite Hr. unfold P, eol. clear - HW Hpos. destruct total as [|m]; [lia|]. destruct (succ_div W HW m) as [[K1 [K2 K3]]|[K1 [K2 K3]]]; rewrite K1.
    - rewrite Nat.eqb_refl, shows_one. cbn [past]. rewrite feeds_crlf, K2. cbn [t_row]. lia.
    - cbn [Nat.eqb past]. rewrite K2. reflexivity.
  Qed.

  Lemma sim_levels : forall l, levels l -> forall o T g F, sim o T g F -> t_st T = Ground ->
    sim (down o (shows T l)) (shows T l) (paints T g (render_toks l)) (fshows F l) /\ t_row T <= t_row (shows T l) /\ t_st (shows T l) = Ground.
  Proof. intros l H. exact (sim_level _ H). Qed.
  Lemma sim_up : forall o T g F n, sim o T g F -> t_st T = Ground -> o <= t_row T - mov n ->
    sim o (shows T [TUp n]) (paints T g (render_toks [TUp n])) (fshows F [TUp n]) /\ t_st (shows T [TUp n]) = Ground /\ t_row (shows T [TUp n]) = t_row T - mov n.
  Proof.
    intros o T g F n S HT Ho. unfold ScrollSpec.fshows, ScreenSpec.shows, render_toks. cbn [flat_map]. rewrite app_nil_r. cbn [render_tok]. change (str "A") with [ch "A"].
    destruct (sim_csi o T g F (decimal n) (ch "A") S HT) as [K1 [_ K2]]; try reflexivity; try discriminate.
    - apply (digit_param W cw HW), decimal_digits.
    - right. rewrite decimal_number. exact Ho.
    - split; [exact K1|]. split; [exact K2|]. destruct T as [r k l st]. cbn [t_st] in HT. subst st. change (csi (decimal n ++ [ch "A"])) with (render_tok (TUp n)).
      rewrite (feeds_up W cw HW). reflexivity.
  Qed.
  Lemma toks_app : forall T g a b, paints T g (render_toks (a ++ b)) = paints (shows T a) (paints T g (render_toks a)) (render_toks b).
  Proof. intros. unfold render_toks. rewrite flat_map_app. apply paints_app. Qed.
  Lemma fshows_app : forall F a b, fshows F (a ++ b) = fshows (fshows F a) b.
  Proof. intros. unfold ScrollSpec.fshows, render_toks. rewrite flat_map_app. apply ffeeds_app. Qed.
End Scroll.

Lemma redraw_sim : forall W Ht cw E s u s' prompt n pv t, 0 < Ht ->
  display E s = ORet u s' -> terminal_width (e_size E) = Some W ->
  search_prompt (e_uni E) s' = Val (prompt, n) -> on_screen s' t -> drawable W cw (e_uni E) prompt pv t s' ->
  ed_hint s' = None -> (N.of_nat (ed_tcl s) < 65536)%N -> endn W (length pv) 0 (pv ++ t) / W < Ht ->
  exists toks, ed_tty s' = ed_tty s ++ toks /\
  forall o T g F, sim Ht o T g F -> t_st T = Ground ->
    let r := t_row T - (ed_tcl s - 1) in o <= r ->
    exists o', sim Ht o' (shows W cw T toks) (paints W cw T g (render_toks toks)) (fshows W Ht cw F toks) /\ o <= o' <= r.
Proof.
  intros W Ht cw E s u s' prompt n pv t HH H HW Hsp Hon D Hh Htcl Hfit.
  assert (HW0 : 0 < W) by (destruct (e_size E) as [[|w]|]; cbn in HW; try discriminate; injection HW as <-; lia).
  destruct (redraw_exact W cw E s u s' prompt n pv t H HW Hsp Hon D Hh Htcl) as [toks' [X1 X2]].
  destruct (display_impl_of _ _ _ _ H) as [y [Hg Hd]]. pose proof (display_impl_drawn E true (set_sugg y (refreshed s))) as K. rewrite Hd in K.
  destruct K as [prompt' [rpw [w [tw [b' [toks [tcl [J1 [J2 [J3 [J4 [J5 J6]]]]]]]]]]]].
  rewrite J2, J3 in HW. injection HW as ->. edsimp_in J5. edsimp_in J6.
  set (s1 := refreshed s) in *. set (c := clamp_cursor (ed_noeol s1) (num_chars b') (ed_cursor s1)) in *.
  destruct (refreshed_same s) as [R1 [R2 R3]]. fold s1 in R1, R2, R3.
  assert (Eg : ed_sugg s' = y) by (rewrite J6; reflexivity).
  assert (Eh : ed_hint s' = ed_hint s1) by (rewrite J6; reflexivity).
  assert (Hsp' : search_prompt (e_uni E) s' = search_prompt (e_uni E) (set_sugg y s1)) by (rewrite J6; reflexivity).
  rewrite Hsp', J1 in Hsp. injection Hsp as -> ->.
  assert (Eb : cur_buf s' = Val b') by (rewrite J6, cur_buf_shown; exact J4).
  assert (Et : t = match y with Some z => data z | None => data b' end).
  { unfold on_screen in Hon. rewrite Eg in Hon. destruct y as [z|]; [exact Hon|]. destruct Hon as [b2 [Hb2 ->]]. congruence. }
  set (s2 := set_cursor c (set_sugg y s1)) in *.
  assert (D' : drawable W cw (e_uni E) prompt pv t s2).
  { destruct D as [D1 D2 D3 D4 D5 D6 D7 D8 D9]. constructor; try assumption.
    - intros f z Hf. apply D4. rewrite J6. exact Hf.
    - intros comps i Hc. apply (D5 comps i). rewrite Eh. exact Hc. }
  assert (Hh2 : ed_hint s2 = None) by (change (ed_hint s2) with (ed_hint s1); rewrite <- Eh; exact Hh).
  destruct (render_level W Ht cw HW0 HH _ _ _ _ _ _ _ _ _ _ J5 Hh2 D' Et) as [up [body [up2 [col [P1 [P2 [P3 [P4 [P5 [P6 P7]]]]]]]]]].
  change (ed_tcl s2) with (ed_tcl s1) in P4. rewrite R1 in P4.
  assert (Ett : ed_tty s' = ed_tty s ++ toks) by (rewrite J6; unfold shown; edsimp; rewrite R2; reflexivity).
  rewrite Ett in X1. apply app_inv_head in X1. subst toks'.
  exists toks. split; [exact Ett|]. intros o T g F S HT r Ho.
  destruct (X2 T g HT) as [L [e [_ [_ [_ X3]]]]]. fold r in X3.
  replace (TModes :: up ++ TCR :: TClearAfter :: body ++ up2 ++ col) with ([TModes] ++ up ++ [TCR; TClearAfter] ++ body ++ up2 ++ col) in P1 by reflexivity.
  rewrite P1 in X3 |- *. rewrite !shows_app in *. rewrite !toks_app, !fshows_app.
  assert (S0 := sim_levels W Ht cw HW0 HH [TModes] (levels_one W cw HW0 TModes I) o T g F S HT). destruct S0 as [S1 [_ G1]].
  assert (T1 : shows W cw T [TModes] = T) by (destruct T as [a b d f]; cbn [t_st] in HT; subst f; reflexivity).
  rewrite T1 in S1, X3. clear G1. rewrite T1.
  assert (Eo : down Ht o T = o) by (unfold down; destruct S; lia). rewrite Eo in S1.
  set (g1 := paints W cw T g (render_toks [TModes])) in *. set (F1 := fshows W Ht cw F [TModes]) in *. clearbody g1 F1.
  assert (Hup : sim Ht o (shows W cw T up) (paints W cw T g1 (render_toks up)) (fshows W Ht cw F1 up) /\ t_st (shows W cw T up) = Ground /\ t_row (shows W cw T up) = r).
  { destruct P4 as [[-> P4]|[-> P4]].
    - split; [exact S1|]. split; [exact HT|]. unfold r. change (shows W cw T []) with T. lia.
    - assert (Em : mov (u16_of (ed_tcl s) - 1) = ed_tcl s - 1).
      { unfold mov, u16_of. rewrite N.mod_small by exact Htcl. rewrite N.max_r by lia. lia. }
      destruct (sim_up W Ht cw HW0 HH o T g1 F1 (u16_of (ed_tcl s) - 1) S1 HT) as [A1 [A2 A3]]; [rewrite Em; exact Ho|].
      split; [exact A1|]. split; [exact A2|]. rewrite A3, Em. reflexivity. }
  destruct Hup as [S2 [G2 Er]]. set (T2 := shows W cw T up) in *. set (g2 := paints W cw T g1 (render_toks up)) in *. set (F2 := fshows W Ht cw F1 up) in *. clearbody T2 g2 F2.
  assert (Hmid : levels [TCR; TClearAfter]) by (apply (levels_app [TCR] [TClearAfter]); apply (levels_one W cw HW0); exact I).
  destruct (sim_levels W Ht cw HW0 HH _ Hmid o T2 g2 F2 S2 G2) as [S3 [_ G3]].
  assert (T3 : exists lg, shows W cw T2 [TCR; TClearAfter] = mkTerm r 0 lg Ground).
  { destruct T2 as [a b d f]; cbn [t_st t_row] in G2, Er; subst f a. exists d. rewrite shows_cons, feeds_cr, shows_one, feeds_clear. reflexivity. }
  destruct T3 as [lg T3]. rewrite T3 in *.
  assert (Eo3 : down Ht o (mkTerm r 0 lg Ground) = o) by (unfold down; cbn [t_row]; destruct S2; lia). rewrite Eo3 in S3.
  destruct (sim_levels W Ht cw HW0 HH _ P2 o _ _ _ S3 G3) as [S4 [_ G4]]. specialize (P7 r lg).
  set (T4 := shows W cw (mkTerm r 0 lg Ground) body) in *.
  set (o' := down Ht o T4) in *. assert (Ho' : o <= o' <= r) by (unfold o', down; rewrite P7; lia).
  match type of S4 with sim _ _ _ ?x ?y => set (g4 := x) in *; set (F4 := y) in * end. clearbody T4 g4 F4.
  assert (Hrow : r <= t_row (shows W cw T4 up2)).
  { assert (Gu : t_st (shows W cw T4 up2) = Ground).
    { destruct P5 as [->|[m ->]]; [exact G4|]. destruct T4 as [a b d f]. cbn [t_st] in G4. subst f. rewrite shows_one, (feeds_up W cw HW0). reflexivity. }
    rewrite (P6 _ Gu) in X3. lia. }
  assert (Hup2 : sim Ht o' (shows W cw T4 up2) (paints W cw T4 g4 (render_toks up2)) (fshows W Ht cw F4 up2) /\ t_st (shows W cw T4 up2) = Ground).
  { destruct P5 as [->|[m ->]]; [split; [exact S4|exact G4]|].
    assert (Er4 : t_row (shows W cw T4 [TUp m]) = t_row T4 - mov m) by (destruct T4 as [a b d f]; cbn [t_st] in G4; subst f; rewrite shows_one, (feeds_up W cw HW0); reflexivity).
    destruct (sim_up W Ht cw HW0 HH o' T4 g4 F4 m S4 G4) as [A1 [A2 A3]]; [lia|]. split; assumption. }
  destruct Hup2 as [S5 G5].
  destruct (sim_levels W Ht cw HW0 HH _ P3 o' _ _ _ S5 G5) as [S6 _].
  assert (Eo6 : down Ht o' (shows W cw (shows W cw T4 up2) col) = o').
  { unfold down. rewrite (P6 _ G5). destruct S5; lia. }
  rewrite Eo6 in S6. exists o'. split; [exact S6|exact Ho'].
Qed.

Lemma drawn_sim : forall W Ht cw sb l s, 0 < Ht -> drawn sb l s -> Forall (plain W cw) l -> Forall (fits W Ht cw) l -> ed_tcl sb = 1 ->
  exists toks, ed_tty s = ed_tty sb ++ toks /\
  forall o T g F, sim Ht o T g F -> t_st T = Ground ->
    exists o' r, sim Ht o' (shows W cw T toks) (paints W cw T g (render_toks toks)) (fshows W Ht cw F toks) /\ t_st (shows W cw T toks) = Ground /\
      o <= o' <= r /\ t_row (shows W cw T toks) = r + (ed_tcl s - 1).
Proof.
  intros W Ht cw sb l s HH H. induction H as [s E1 E2|l E c s s1 s2 s' H IH E1 E2 Ed E3 E4]; intros F0 Ff Hb.
  - exists []. rewrite app_nil_r. split; [exact E1|]. intros o T g F S HT. exists o, (t_row T). split; [exact S|]. split; [exact HT|].
    split; [destruct S; lia|]. rewrite E2, Hb. cbn. lia.
  - inversion F0 as [|x y Hd Fl]; subst x y. inversion Ff as [|x y Hf Ffl]; subst x y. destruct (IH Fl Ffl Hb) as [toks [K1 K2]].
    destruct Hd as [prompt [n [pv [t [P1 [P2 [P3 [P4 [P5 P6]]]]]]]]]. cbn [rd_env rd_from rd_to] in *.
    assert (HW0 : 0 < W) by (destruct (e_size E) as [[|w]|]; cbn in P1; try discriminate; injection P1 as <-; lia).
    assert (Hin : In c_nl (pv ++ t) -> length pv < W).
    { intro K. apply in_app_or in K as [K|K]; [|apply (dr_lines _ _ _ _ _ _ _ P4) in K; lia].
      pose proof (styled_narrow cw _ _ (dr_prompt _ _ _ _ _ _ _ P4)) as Q. rewrite Forall_forall in Q. destruct (narrow_nl W cw HW0 (Q _ K)). }
    assert (Hfit : endn W (length pv) 0 (pv ++ t) / W < Ht).
    { pose proof (laid_cells W HW0 0 (length pv) (pv ++ t) 0 Hin) as K. unfold fresh at 1 in K. rewrite Nat.div_0_l, Nat.mod_0_l in K by lia.
      exact (Hf _ _ _ _ _ _ P2 (dr_prompt _ _ _ _ _ _ _ P4) P3 K). }
    destruct (redraw_sim W Ht cw E s1 tt s2 prompt n pv t HH Ed P1 P2 P3 P4 P5 P6 Hfit) as [more [Q1 Q2]].
    destruct (redraw_exact W cw E s1 tt s2 prompt n pv t Ed P1 P2 P3 P4 P5 P6) as [more0 [Q3 Q4]].
    rewrite Q1 in Q3. apply app_inv_head in Q3. subst more0.
    exists (toks ++ more). split; [rewrite E3, Q1, E1, K1, app_assoc; reflexivity|]. intros o T g F S HT.
    destruct (K2 o T g F S HT) as [o1 [r [A1 [A2 [A3 A4]]]]].
    rewrite shows_app, toks_app, fshows_app.
    set (T1 := shows W cw T toks) in *. set (r' := t_row T1 - (ed_tcl s1 - 1)).
    assert (Hr : r <= r') by (unfold r'; rewrite A4, E2; destruct c; lia).
    destruct (Q2 _ _ _ _ A1 A2 ltac:(fold r'; lia)) as [o2 [B1 B2]]. fold r' in B2.
    destruct (Q4 T1 g A2) as [L [e [_ [_ [C3 C4]]]]]. fold r' in C4.
    exists o2, r'. split; [exact B1|]. split; [exact C3|]. split; [lia|]. rewrite C4, E4. reflexivity.
Qed.

(** The layout in other coordinates *)
Lemma laid_shift : forall W ind o p t L e, laid W ind p t L e -> o <= fst p ->
  exists L', laid W ind (fst p - o, snd p) t L' (fst e - o, snd e) /\ forall i j c, In (o + i, j, c) L <-> In (i, j, c) L'.
Proof.
  intros W ind o p t L e H. induction H as [[r k]|[r k] c t L e Hc H IH|r k t L e H IH]; cbn [fst snd]; intro Ho.
  - exists []. split; [constructor|]. intros. reflexivity.
  - assert (Ea : after_cell W (r - o, k) = (fst (after_cell W (r, k)) - o, snd (after_cell W (r, k)))).
    { unfold after_cell. cbn [fst snd]. destruct (S k =? W); cbn [fst snd]; f_equal; lia. }
    destruct IH as [L' [H1 H2]]; [unfold after_cell; cbn [fst snd]; destruct (S k =? W); cbn [fst]; lia|].
    exists ((r - o, k, c) :: L'). split; [constructor; [exact Hc|rewrite Ea; exact H1]|].
    intros i j d. cbn [In]. rewrite H2. split; (intros [K|K]; [left|right; exact K]); injection K; intros; repeat f_equal; lia || congruence.
  - cbn [fst snd] in IH. destruct IH as [L' [H1 H2]]; [destruct (k =? 0); lia|]. exists L'. split; [|exact H2].
    constructor. destruct (k =? 0); [exact H1|]. replace (S (r - o)) with (S r - o) by lia. exact H1.
Qed.

Lemma drawn_scrolled : forall W Ht cw sb d l s, drawn sb (d :: l) s -> alike (rd_to d) s -> Forall (plain W cw) (d :: l) -> Forall (fits W Ht cw) (d :: l) -> ed_tcl sb = 1 ->
  exists toks prompt n pv t, ed_tty s = ed_tty sb ++ toks /\
  search_prompt (e_uni (rd_env d)) s = Val (prompt, n) /\ styled (narrow cw) prompt pv /\ on_screen s t /\
  forall F, f_st F = Ground -> f_row F < Ht ->
    let F' := fshows W Ht cw F toks in
    exists o r L e, (forall i j, i < r -> o + i < f_row F -> f_screen F' i j = f_screen F (o + i) j) /\
      f_row F <= o + r /\ (Forall (fun d => rd_clear d = false) (d :: l) -> o + r = f_row F) /\
      laid W (length pv) (r, 0) (pv ++ t) L e /\
      (forall i j c, r <= i -> (i < Ht /\ f_screen F' i j = Some c <-> In (i, j, c) L)) /\
      (is_search s = false -> exists L1, laid W (length pv) (r, 0) (pv ++ firstn (ed_cursor s) t) L1 (f_row F', f_col F')).
Proof.
  intros W Ht cw sb d l s H A F Ff Hb. destruct (drawn_rows W cw sb (d :: l) s H F Hb) as [toks [K1 K2]].
  pose proof F as F0. inversion F0 as [|x y Hd Fl]; subst x y. destruct Hd as [prompt [n [pv [t [P1 [P2 [P3 [P4 [P5 P6]]]]]]]]].
  assert (Hc : exists b, cur_buf (rd_to d) = Val b).
  { inversion H; subst. cbn [rd_to]. eapply display_cur. eassumption. }
  exists toks, prompt, n, pv, t. split; [exact K1|]. split; [exact (alike_prompt _ _ _ _ A Hc P2)|].
  split; [exact (dr_prompt _ _ _ _ _ _ _ P4)|]. split; [exact (alike_on_screen _ _ _ A P3)|].
  intros X HX HXr X'.
  destruct (drawn_sim W Ht cw sb (d :: l) s ltac:(lia) H F Ff Hb) as [toks' [S1 S2]].
  rewrite K1 in S1. apply app_inv_head in S1. subst toks'.
  set (T := mkTerm (f_row X) (f_col X) [] Ground). set (g := fun i j => if i <? Ht then f_screen X i j else None).
  assert (S0 : sim Ht 0 T g X).
  { constructor; cbn [T t_row t_col t_st]; auto.
    - intros i j Hi. unfold g. cbn [Nat.add]. destruct (Nat.ltb_spec i Ht); [reflexivity|lia].
    - intros i j Hi. unfold g. destruct (Nat.ltb_spec i Ht); [lia|reflexivity]. }
  destruct (S2 0 T g X S0 eq_refl) as [o [r' [M1 [_ [M2 M3]]]]].
  destruct (K2 T g eq_refl) as [_ [B2 [r [B3 [B4 [B5 B6]]]]]].
  assert (r' = r) by lia. subst r'. cbn [T t_row] in B2, B3, B4.
  destruct (B6 prompt n pv t P2 P3 P4) as [L [e [C1 [C2 C3]]]].
  destruct M1 as [N1 N2 N3 N4 N5 N6]. fold X' in N1, N2, N3, N4, N5.
  destruct (laid_shift _ _ o _ _ _ _ C1 ltac:(cbn [fst]; lia)) as [L' [D1 D2]]. cbn [fst snd] in D1.
  exists o, (r - o), L', (fst e - o, snd e). split; [|split; [lia|split; [intro Q; specialize (B4 Q); lia|split; [exact D1|split]]]].
  - intros i j Hi Hoi. destruct (Nat.ltb_spec i Ht) as [Q|Q]; [|lia].
    rewrite N5 by exact Q. rewrite B2 by exact Hoi. unfold g. destruct (Nat.ltb_spec (o + i) Ht); [reflexivity|lia].
  - intros i j c Hi. rewrite <- D2, <- C2 by lia. split.
    + intros [Q1 Q2]. rewrite <- N5 by exact Q1. exact Q2.
    + intro Q. destruct (Nat.lt_ge_cases i Ht) as [J|J]; [split; [exact J|rewrite N5 by exact J; exact Q]|].
      rewrite N6 in Q by lia. discriminate Q.
  - destruct A as [_ [A2 [_ [A4 _]]]]. rewrite A2, A4. intro Q. destruct (C3 Q) as [L1 E1].
    destruct (laid_shift _ _ o _ _ _ _ E1 ltac:(cbn [fst]; lia)) as [L2 [E2 _]]. cbn [fst snd] in E2.
    exists L2. rewrite N1, N3 in E2. replace (o + f_row X' - o) with (f_row X') in E2 by lia. exact E2.
Qed.

Lemma styled_plain : forall P t v, styled P t v -> ~ In c_esc t -> v = t.
Proof.
  intros P t v H. induction H as [|c t v Hc H IH|p t v Hp H IH]; intro K; [reflexivity| |destruct (K (or_introl eq_refl))].
  f_equal. apply IH. intro J. apply K. right. exact J.
Qed.
