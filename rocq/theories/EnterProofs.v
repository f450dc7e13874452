(** The screen after Enter. *)
From Verif Require Import Base Utf8 BufferModel UtilModel UtilSpec UtilProofs HistoryModel EditorState EditorModel KeymapModel
  MonadLemmas EditorLemmas CursorProofs TextProofs BufferSpec BufferProofs CompleteProofs SuggestProofs Tests ScreenSpec ScreenProofs GridSpec GridProofs FreshSpec FreshProofs EnterSpec.
Local Open Scope monad_scope.

Section Enter.
  Context (W : nat) (cw : char -> nat) (HW : 0 < W).
  Notation feeds := (feeds W cw).
  Notation shows := (shows W cw).
  Notation paints := (paints W cw).
  Notation nar := (narrow cw).

  Lemma paints_toks : forall T0 g0 k l, paints T0 g0 (render_toks (k :: l)) = paints (feeds T0 (render_tok k)) (paints T0 g0 (render_tok k)) (render_toks l).
  Proof. intros T0 g0 k l. unfold render_toks. cbn [flat_map]. apply paints_app. Qed.

  (** What comes after the erasure. *)
  Lemma begin_paints : forall up rest tcl T g, quiets rest -> (N.of_nat tcl < 65536)%N -> t_st T = Ground ->
    up = [] /\ tcl <= 1 \/ up = [TUp (u16_of tcl - 1)] /\ 1 < tcl ->
    let r := t_row T - (tcl - 1) in let toks := TModes :: up ++ TCR :: TClearAfter :: rest in
    shows T toks = shows (mkTerm r 0 (t_log T) Ground) rest /\
    forall L, t_log (shows (mkTerm r 0 (t_log T) Ground) rest) = t_log T ++ L -> paints T g (render_toks toks) = puts L (wipe 0 r 0 g).
  Proof.
    intros up rest tcl [tr tk tl ts] g Hq Htcl HT P5 r toks. cbn [t_st] in HT. subst ts. cbn [t_row t_log] in *.
    assert (Hup : exists ku, shows (mkTerm tr tk tl Ground) up = mkTerm r ku tl Ground /\ paints (mkTerm tr tk tl Ground) g (render_toks up) = g).
    { destruct P5 as [[-> P5]|[-> P5]].
      - exists tk. split; [|reflexivity]. unfold r. replace (tr - (tcl - 1)) with tr by lia. reflexivity.
      - rewrite shows_one, (feeds_up W cw HW). eexists. split.
        + f_equal. unfold r, mov, u16_of. rewrite N.mod_small by exact Htcl. rewrite N.max_r by lia. lia.
        + unfold render_toks. cbn [flat_map]. rewrite app_nil_r. cbn [render_tok]. change (str "A") with [ch "A"].
          rewrite (paints_csi W cw HW); [reflexivity|apply (digit_param W cw HW), decimal_digits|reflexivity]. }
    destruct Hup as [ku [U1 U2]].
    assert (Es : shows (mkTerm tr tk tl Ground) toks = shows (mkTerm r 0 tl Ground) rest).
    { unfold toks. rewrite shows_cons, feeds_modes, shows_app, U1, shows_cons, feeds_cr, shows_cons, feeds_clear. reflexivity. }
    split; [exact Es|]. intros L HL.
    assert (E1 : paints (mkTerm tr tk tl Ground) g (render_toks toks) = paints (mkTerm r 0 tl Ground) (wipe 0 r 0 g) (render_toks rest)).
    { unfold toks. rewrite paints_toks, feeds_modes.
      replace (paints (mkTerm tr tk tl Ground) g (render_tok TModes)) with g.
      2: { symmetry. change (render_tok TModes) with (csi (str "?1000" ++ [ch "l"]) ++ csi (str "?1" ++ [ch "l"])). rewrite paints_app.
           rewrite (paints_csi W cw HW tr tk tl g (str "?1000") (ch "l")); [|repeat constructor; vm_compute; discriminate|reflexivity].
           rewrite (feeds_csi W cw HW tr tk tl (str "?1000") (ch "l")); [|repeat constructor; vm_compute; discriminate|reflexivity].
           apply (paints_csi W cw HW tr tk tl g (str "?1") (ch "l")); [repeat constructor; vm_compute; discriminate|reflexivity]. }
      replace (render_toks (up ++ TCR :: TClearAfter :: rest)) with (render_toks up ++ render_toks (TCR :: TClearAfter :: rest)) by (unfold render_toks; rewrite (flat_map_app _ up); reflexivity).
      rewrite paints_app, U2. change (feeds (mkTerm tr tk tl Ground) (render_toks up)) with (shows (mkTerm tr tk tl Ground) up). rewrite U1.
      rewrite paints_toks, feeds_cr. replace (paints (mkTerm r ku tl Ground) g (render_tok TCR)) with g.
      2: { cbn [render_tok GridSpec.paints]. unfold paint. cbn [t_st t_log]. change (t_log (feed W cw (mkTerm r ku tl Ground) c_cr)) with tl. rewrite skipn_all. reflexivity. }
      rewrite paints_toks, feeds_clear. change (render_tok TClearAfter) with (csi ([] ++ [ch "J"])).
      rewrite (paints_csi W cw HW r 0 tl g [] (ch "J")) by (constructor || reflexivity). reflexivity. }
    rewrite E1. destruct (quiet_paints W cw HW _ Hq (mkTerm r 0 tl Ground) (wipe 0 r 0 g) eq_refl) as [_ [l [Q1 Q2]]]. rewrite Q2. f_equal.
    change (feeds (mkTerm r 0 tl Ground) (render_toks rest)) with (shows (mkTerm r 0 tl Ground) rest) in Q1. cbn [t_log] in Q1.
    rewrite HL in Q1. apply app_inv_head in Q1. symmetry. exact Q1.
  Qed.

  (** Rows of the cells. *)
  Lemma cells_upto : forall r0 ind t n i j c, In (i, j, c) (cells W r0 ind n t) -> i <= r0 + endn W ind n t / W.
  Proof.
    intros r0 ind. induction t as [|x t IH]; intros n i j c H; cbn [cells] in H; [contradiction|].
    rewrite endn_cons. unfold ostep. destruct (N.eqb x c_nl); [exact (IH _ _ _ _ H)|].
    destruct H as [H|H]; [|exact (IH _ _ _ _ H)]. assert (Hf : fresh W r0 n = (i, j)) by congruence. injection Hf as <- _.
    apply Nat.add_le_mono_l, Nat.div_le_mono; [lia|]. pose proof (endn_ge W cw HW ind t (S n)). lia.
  Qed.
  Lemma cells_last : forall r0 ind a l i j c, length l <= 1 -> In (i, j, c) (cells W r0 ind 0 (a ++ l)) -> i <= r0 + endn W ind 0 a / W.
  Proof.
    intros r0 ind a l i j c Hl H. rewrite cells_app in H. apply in_app_or in H as [H|H]; [exact (cells_upto _ _ _ _ _ _ _ H)|].
    destruct l as [|x [|y l]]; cbn [length] in Hl; [contradiction| |lia]. cbn [cells] in H. destruct (N.eqb x c_nl); [contradiction|].
    destruct H as [H|[]]. assert (Hf : fresh W r0 (endn W ind 0 a) = (i, j)) by congruence. injection Hf as <- _. lia.
  Qed.

  (** The layout of a text is unique. *)
  Lemma laid_det : forall ind t p L e L' e', laid W ind p t L e -> laid W ind p t L' e' -> e = e'.
  Proof.
    intros ind t. induction t as [|c t IH]; intros p L e L' e' H H'; inversion H; subst; inversion H'; subst; try congruence; eapply IH; eassumption.
  Qed.

  (** The end of the redraw and the line break. *)
  Lemma finish_shows : forall r0 bt gt tc l up2 reset, 
    0 < bt -> bt <= gt -> tc <= bt -> (gt = bt \/ gt / W = bt / W /\ bt mod W <> 0) -> (N.of_nat (gt / W) < 65536)%N -> (N.of_nat W < 65536)%N ->
    reset = [TFgReset] \/ reset = [] ->
    (if (tc + W) / W <? (gt + W) / W then Val [TUp (u16_of ((gt + W) / W - (tc + W) / W))]
     else if (gt + W) / W <? (tc + W) / W then Pan PUnreach else Val []) = Val up2 ->
    let col := (Z.of_nat gt - Z.of_nat tc - (Z.of_nat ((gt + W) / W) - Z.of_nat ((tc + W) / W)) * Z.of_nat W)%Z in
    shows (past W r0 bt l) (reset ++ (if gt mod W =? 0 then [TCRLF] else []) ++ up2 ++
       (if (0 <? col)%Z then [TLeft (u16_of (Z.to_nat col))] else if (col <? 0)%Z then [TRight (u16_of (Z.to_nat (- col)))] else []) ++ [TCRLF])
    = mkTerm (S (r0 + tc / W)) 0 l Ground.
  Proof.
    intros r0 bt gt tc l up2 reset Hb Hbg Htc Hsame Hrows HW2 Hre Hup col.
    assert (Hr : shows (past W r0 bt l) reset = past W r0 bt l).
    { destruct Hre as [-> | ->]; [rewrite shows_one; apply past_fgreset; exact HW|reflexivity]. }
    rewrite shows_app, Hr. clear Hr Hre.
    destruct Hsame as [-> | [Hq Hm]].
    - pose proof (place_shows W cw HW r0 bt tc l up2 Hb Hrows HW2 Hup) as K. fold col in K.
      match goal with |- shows _ (?a ++ ?b ++ ?c ++ ?d) = _ => replace (a ++ b ++ c ++ d) with ((a ++ b ++ c) ++ d) by (rewrite <- !app_assoc; reflexivity) end.
      rewrite shows_app. cbv zeta in K. fold col in K. rewrite K, shows_one, feeds_crlf. reflexivity.
    - assert (Hg0 : gt mod W <> 0).
      { intro K. pose proof (Nat.div_mod gt W ltac:(lia)) as E1. pose proof (Nat.div_mod bt W ltac:(lia)) as E2. rewrite Hq in E1.
        assert (bt mod W = 0) by lia. contradiction. }
      destruct (Nat.eqb_spec (gt mod W) 0) as [K|_]; [contradiction|]. cbn [app].
      assert (Hp : past W r0 bt l = mkTerm (r0 + bt / W) (bt mod W) l Ground).
      { destruct bt as [|m]; [lia|]. destruct (succ_div W HW m) as [[K1 [K2 K3]]|[K1 [K2 K3]]]; [lia|]. cbn [past]. rewrite K1, K2. reflexivity. }
      rewrite Hp, shows_app.
      assert (Htq : tc / W <= bt / W) by (apply Nat.div_le_mono; lia).
      assert (H2 : exists k, shows (mkTerm (r0 + bt / W) (bt mod W) l Ground) up2 = mkTerm (r0 + tc / W) k l Ground).
      { rewrite !(last_row W HW), Hq in Hup. rewrite Hq in Hrows. revert Hup Hrows Htq. generalize (bt / W), (tc / W). intros bq cq Hup Hrows Htq.
        destruct (Nat.ltb_spec (S cq) (S bq)) as [K|K].
        - injection Hup as <-. rewrite shows_one, (feeds_up W cw HW). rewrite (mov_u16 W HW) by lia. eexists. f_equal. lia.
        - destruct (Nat.ltb_spec (S bq) (S cq)); [discriminate|]. injection Hup as <-. replace bq with cq by lia. eexists. reflexivity. }
      destruct H2 as [k ->]. rewrite shows_app.
      match goal with |- shows (shows _ ?x) _ = _ => assert (H3 : exists k', shows (mkTerm (r0 + tc / W) k l Ground) x = mkTerm (r0 + tc / W) k' l Ground) end.
      { destruct (0 <? col)%Z; [rewrite shows_one, (feeds_left W cw HW); eexists; reflexivity|].
        destruct (col <? 0)%Z; [rewrite shows_one, (feeds_right W cw HW); eexists; reflexivity|eexists; reflexivity]. }
      destruct H3 as [k' ->]. rewrite shows_one, feeds_crlf. reflexivity.
  Qed.

  Lemma prefix_endn : forall ind a b n, endn W ind n a <= endn W ind n (a ++ b).
  Proof. intros ind a b n. rewrite endn_app. apply (endn_ge W cw HW). Qed.

  (** Enter's redraw, with the line break after it. *)
  Lemma enter_render : forall U w prompt rpw buf s toks tcl pv t,
    display_render U false W w prompt rpw buf s = Val (toks, tcl) -> is_search s = false -> ed_hint s = None ->
    drawable W cw U prompt pv t s -> drawable W cw U prompt pv (data buf) s ->
    t = match ed_sugg s with Some g => data g | None => data buf end -> (exists r, t = data buf ++ r) ->
    same_rows W pv (data buf) t -> ed_cursor s <= length (data buf) <= S (ed_cursor s) -> (N.of_nat (ed_tcl s) < 65536)%N ->
    forall T g, t_st T = Ground -> let r := t_row T - (ed_tcl s - 1) in
      let L := cells W r (length pv) 0 (pv ++ data buf) in
      paints T g (render_toks (toks ++ [TCRLF])) = puts L (wipe 0 r 0 g) /\
      laid W (length pv) (r, 0) (pv ++ data buf) L (fresh W r (endn W (length pv) 0 (pv ++ data buf))) /\
      exists R, shows T (toks ++ [TCRLF]) = mkTerm (S R) 0 (t_log T ++ L) Ground /\ r <= R /\ forall i j c, In (i, j, c) L -> i <= R.
  Proof.
    intros U w prompt rpw buf s toks tcl pv t H Hs Hh D Db Et [ext Eext] Hsame Hcur Htcl. unfold display_render in H.
    rewrite (prompt_width W cw HW U prompt pv (dr_measure _ _ _ _ _ _ _ D) (dr_prompt _ _ _ _ _ _ _ D)), Hs, Hh in H.
    destruct (BufferModel.buf_width U buf) as [own|] eqn:E1; [|discriminate]. cbn [rbind] in H.
    assert (E2 : exists bw, match ed_sugg s with Some g => BufferModel.buf_width U g | None => Val own end = Val bw /\ bw = map (u_width U) (split_on c_nl t)).
    { rewrite Et. destruct (ed_sugg s) as [g|].
      - destruct (BufferModel.buf_width U g) as [bw|] eqn:E; [|discriminate]. exists bw. split; [reflexivity|apply width_Val; exact E].
      - exists own. split; [reflexivity|apply width_Val; exact E1]. }
    destruct E2 as [bw [E2 Ebw]]. rewrite E2 in H. cbn [rbind] in H.
    match type of H with rbind ?m _ = _ => assert (E3 : m = Val (map (u_width U) (split_on c_nl (firstn (ed_cursor s) (data buf))))) end.
    { destruct (ed_sugg s) as [g|]; [destruct (ed_cursor s <? num_chars g)|].
      - destruct (range_width U g 0 (ed_cursor s)) eqn:E; [|discriminate]. apply range_Val in E. subst. rewrite Eext, firstn_app.
        replace (ed_cursor s - length (data buf)) with 0 by lia. rewrite firstn_O, app_nil_r. reflexivity.
      - destruct (range_width U buf 0 (ed_cursor s)) eqn:E; [|discriminate]. apply range_Val in E. subst. reflexivity.
      - destruct (range_width U buf 0 (ed_cursor s)) eqn:E; [|discriminate]. apply range_Val in E. subst. reflexivity. }
    rewrite E3 in H. cbn [rbind] in H. cbv zeta in H. set (x := firstn (ed_cursor s) (data buf)) in *.
    assert (Hx : Forall (fun c => c = c_nl \/ nar c) x).
    { pose proof (dr_text _ _ _ _ _ _ _ Db) as F. rewrite <- (firstn_skipn (ed_cursor s) (data buf)) in F. apply Forall_app in F. apply F. }
    rewrite Ebw, (calc_endn W cw HW (length pv) U (dr_measure _ _ _ _ _ _ _ D) t (dr_text _ _ _ _ _ _ _ D)) in H.
    rewrite (calc_endn W cw HW (length pv) U (dr_measure _ _ _ _ _ _ _ D) x Hx) in H.
    set (gt := endn W (length pv) (length pv) t) in *. set (tc := endn W (length pv) (length pv) x) in *.
    set (bt := endn W (length pv) (length pv) (data buf)) in *.
    destruct (if 1 <? ed_tcl s then _ else _) as [t_up|] eqn:Eup in H; [|discriminate]. cbn [rbind] in H.
    match type of H with rbind (print_lines _ _ _ _ (length ?l) _ _) _ = _ => replace l with (split_on c_nl (data buf)) in H by (destruct (ed_sugg s); reflexivity) end.
    set (lines := split_on c_nl (data buf)) in *.
    destruct (print_lines false (ed_closure s) (length pv) 0 (length lines) (num_bytes buf) lines) as [t_lines|] eqn:Elines; [|discriminate].
    cbn [rbind] in H.
    destruct (if (tc + W) / W <? (gt + W) / W then _ else _) as [up2|] eqn:Eup2 in H; [|discriminate]. cbn [rbind] in H.
    injection H as <- _.
    pose proof (dr_width _ _ _ _ _ _ _ D) as HW2.
    assert (Hpv : endn W (length pv) 0 pv = length pv) by (rewrite (endn_flat W cw HW) by (eapply styled_narrow, (dr_prompt _ _ _ _ _ _ _ D)); reflexivity).
    assert (Hall : forall z, endn W (length pv) 0 (pv ++ z) = endn W (length pv) (length pv) z) by (intro z; rewrite endn_app, Hpv; reflexivity).
    assert (Hpos : 0 < bt).
    { unfold bt. pose proof (endn_ge W cw HW (length pv) (data buf) (length pv)) as Hg. destruct pv as [|c0 pv0]; [|cbn [length] in *; lia].
      pose proof (dr_some _ _ _ _ _ _ _ Db) as Hso. pose proof (dr_lines _ _ _ _ _ _ _ Db) as Hl. cbn [app length] in *. destruct (data buf) as [|c t0]; [congruence|].
      rewrite endn_cons in *. unfold ostep in *. destruct (N.eqb_spec c c_nl) as [->|_]; [exfalso; specialize (Hl (or_introl eq_refl)); lia|].
      pose proof (endn_ge W cw HW 0 t0 1). lia. }
    assert (Hin : forall z, drawable W cw U prompt pv z s -> In c_nl (pv ++ z) -> length pv < W).
    { intros z Dz K. apply in_app_or in K as [K|K]; [|apply (dr_lines _ _ _ _ _ _ _ Dz) in K; lia].
      pose proof (styled_narrow cw _ _ (dr_prompt _ _ _ _ _ _ _ Dz)) as F. rewrite Forall_forall in F. destruct (narrow_nl W cw HW (F _ K)). }
    assert (Hlay : forall z r, drawable W cw U prompt pv z s ->
      laid W (length pv) (r, 0) (pv ++ z) (cells W r (length pv) 0 (pv ++ z)) (fresh W r (endn W (length pv) (length pv) z))).
    { intros z r Dz. pose proof (laid_cells W HW r (length pv) (pv ++ z) 0 (Hin z Dz)) as K. unfold fresh at 1 in K. rewrite Nat.div_0_l, Nat.mod_0_l, Nat.add_0_r, Hall in K by lia. exact K. }
    assert (Hrows : (N.of_nat (gt / W) < 65536)%N) by (exact (dr_rows _ _ _ _ _ _ _ D _ _ (Hlay t 0 D))).
    assert (Hbg : bt <= gt) by (unfold bt, gt; rewrite Eext; apply prefix_endn).
    assert (Htc : tc <= bt) by (unfold bt, tc, x; rewrite <- (firstn_skipn (ed_cursor s) (data buf)) at 2; apply prefix_endn).
    assert (Hsame' : gt = bt \/ gt / W = bt / W /\ bt mod W <> 0).
    { destruct Hsame as [K|[L1 [e1 [L2 [e2 [K1 [K2 [K3 K4]]]]]]]]; [left; unfold gt; rewrite K; reflexivity|right].
      rewrite (laid_det _ _ _ _ _ _ _ K1 (Hlay (data buf) 0 Db)) in K3, K4. rewrite (laid_det _ _ _ _ _ _ _ K2 (Hlay t 0 D)) in K3.
      unfold fresh in K3, K4. cbn [fst snd] in K3, K4. split; [symmetry; exact K3|exact K4]. }
    intros T g HT r L.
    set (reset := match ed_sugg s with Some _ => [TFgReset] | None => if false then [TFgReset] else [] end) in *.
    assert (Hre : reset = [TFgReset] \/ reset = []) by (unfold reset; destruct (ed_sugg s); auto).
    set (eol := if gt mod W =? 0 then [TCRLF] else []) in *.
    match goal with |- context [up2 ++ ?c] => set (col := c) in * end.
    set (rest := TStr prompt :: t_lines ++ reset ++ eol ++ up2 ++ col ++ [TCRLF]).
    assert (Etk : (TModes :: t_up ++ TCR :: TClearAfter :: TStr prompt :: t_lines ++ reset ++ eol ++ up2 ++ col) ++ [TCRLF]
      = TModes :: t_up ++ TCR :: TClearAfter :: rest) by (unfold rest; cbn [app]; rewrite <- ?app_assoc; cbn [app]; rewrite <- ?app_assoc; reflexivity).
    rewrite Etk.
    assert (Hq1 : forall k, match k with TUp _ | TLeft _ | TRight _ | TCRLF | TCR | TFgReset | TFg _ => True | _ => False end -> quiets [k]).
    { intros k Hk. apply quiets_cons; [apply (quiet_tok W cw HW); exact Hk|constructor]. }
    assert (Hrest : quiets rest).
    { unfold rest. apply quiets_cons; [cbn [render_tok]; eapply (styled_quiet W cw HW), (dr_prompt _ _ _ _ _ _ _ D)|].
      apply quiets_app; [eapply (print_quiet W cw HW); [| |exact Elines]|].
      { intros f y Hf. apply (dr_closure _ _ _ _ _ _ _ D f y Hf). }
      { apply split_narrow. apply (dr_text _ _ _ _ _ _ _ Db). }
      repeat apply quiets_app.
      - destruct Hre as [-> | ->]; [apply Hq1; exact I|constructor].
      - unfold eol. destruct (_ =? 0); [apply Hq1; exact I|constructor].
      - destruct (_ <? _) in Eup2; [injection Eup2 as <-; apply Hq1; exact I|].
        destruct (_ <? _) in Eup2; [discriminate|injection Eup2 as <-; constructor].
      - unfold col. destruct (_ <? _)%Z; [apply Hq1; exact I|]. destruct (_ <? _)%Z; [apply Hq1; exact I|constructor].
      - apply Hq1. exact I. }
    assert (Hup : t_up = [] /\ ed_tcl s <= 1 \/ t_up = [TUp (u16_of (ed_tcl s) - 1)] /\ 1 < ed_tcl s).
    { destruct (Nat.ltb_spec 1 (ed_tcl s)) as [K|K].
      - destruct (u16_of (ed_tcl s) =? 0)%N; [discriminate|]. injection Eup as <-. right. split; [reflexivity|exact K].
      - injection Eup as <-. left. split; [reflexivity|exact K]. }
    destruct (begin_paints t_up rest (ed_tcl s) T g Hrest Htcl HT Hup) as [B1 B2]. fold r in B1, B2.
    assert (Hlen : 1 < length lines -> 0 < length pv < W).
    { intro K. apply (dr_lines _ _ _ _ _ _ _ Db). rewrite <- (glue_split c_nl (data buf)). fold lines. destruct lines as [|l1 [|l2 ls]]; cbn in K; try lia. apply in_glue. }
    assert (Es : shows (mkTerm r 0 (t_log T) Ground) rest = mkTerm (S (r + tc / W)) 0 (t_log T ++ L) Ground).
    { unfold rest. rewrite shows_str. change (mkTerm r 0 (t_log T) Ground) with (past W r 0 (t_log T)).
      rewrite (past_styled W cw HW r (length pv) prompt pv (dr_prompt _ _ _ _ _ _ _ D)), Hpv, shows_app.
      rewrite (print_shows W cw HW r (length pv) (ed_closure s) (fun f x0 => dr_closure _ _ _ _ _ _ _ D f x0) _ _ _ _ _ _ Elines
        ltac:(apply split_on_nonempty) eq_refl ltac:(apply split_narrow; apply (dr_text _ _ _ _ _ _ _ Db)) Hlen HW2
        (past W r (length pv) (t_log T ++ cells W r (length pv) 0 pv)) (length pv) _ ltac:(intro K; apply Hlen in K; lia) eq_refl).
      unfold lines. rewrite glue_split. fold bt. unfold col.
      rewrite (finish_shows r bt gt tc _ up2 reset Hpos Hbg Htc Hsame' Hrows HW2 Hre Eup2).
      unfold L. rewrite cells_app, Hpv, <- app_assoc. reflexivity. }
    split; [|split].
    - apply B2. rewrite Es. reflexivity.
    - rewrite Hall. apply (Hlay _ r Db).
    - exists (r + tc / W). split; [rewrite B1; exact Es|]. split; [apply Nat.le_add_r|]. intros i j c K. unfold tc. rewrite <- Hall.
      eapply (cells_last r (length pv) (pv ++ x) (skipn (ed_cursor s) (data buf))).
      + rewrite skipn_length. lia.
      + rewrite <- app_assoc. unfold x. rewrite firstn_skipn. exact K.
  Qed.
End Enter.

(** * C83 *)
Lemma enter_screen : forall W cw E s s' pv b t,
  handle_newline E s = ORet true s' -> is_search s = false -> terminal_width (e_size E) = Some W ->
  cur_buf s = Val b -> on_screen s t -> (exists r, t = data b ++ r) ->
  drawable W cw (e_uni E) (pr_string (ed_prompt s)) pv t s -> drawable W cw (e_uni E) (pr_string (ed_prompt s)) pv (data b) s ->
  same_rows W pv (data b) t -> (N.of_nat (ed_tcl s) < 65536)%N ->
  exists toks, ed_tty s' = ed_tty s ++ toks /\ cur_buf s' = Val b /\
  forall T g, t_st T = Ground ->
    let r := t_row T - (ed_tcl s - 1) in let T' := shows W cw T toks in
    exists L e, laid W (length pv) (r, 0) (pv ++ data b) L e /\ exactly r L g (paints W cw T g (render_toks toks)) /\
      t_st T' = Ground /\ t_col T' = 0 /\ r < t_row T' /\ forall i j c, In (i, j, c) L -> i < t_row T'.
Proof.
  intros W cw E s s' pv b t H Hs HW Hb Hon Hext D Db Hsame Htcl.
  assert (HW0 : 0 < W) by (destruct (e_size E) as [[|w]|]; cbn in HW; try discriminate; injection HW as <-; lia).
  unfold handle_newline in H. unfold bind, modify, get in H. change (is_search (set_fresh false s)) with (is_search s) in H.
  rewrite Hs in H. unfold when, ret in H. set (s1 := clear_search (set_fresh false s)) in *.
  destruct (ed_hint s1) eqn:Eh; [discriminate H|]. unfold get_cur in H.
  assert (Hb1 : cur_buf s1 = Val b) by exact Hb. rewrite Hb1 in H.
  cbv beta iota in H. set (s2 := set_cursor (num_chars b) s1) in *.
  assert (Hfin : exists u s3, display_impl E false s2 = ORet u s3 /\ s' = set_hint None (set_tty (ed_tty s3 ++ [TCRLF]) s3)).
  { destruct (char_before b (ed_cursor s1)) as [c|].
    - destruct (N.eqb c c_bs).
      + destruct (insert_after_cursor E c_nl s1); discriminate.
      + cbv beta iota in H; fold s2 in H; destruct (display_impl E false s2) as [u s3| | |]; try discriminate H. unfold tty_write in H. destruct (e_wok E); cbv beta iota in H; [|discriminate H].
        exists u, s3. split; [reflexivity|congruence].
    - cbv beta iota in H; fold s2 in H; destruct (display_impl E false s2) as [u s3| | |]; try discriminate H. unfold tty_write in H. destruct (e_wok E); cbv beta iota in H; [|discriminate H].
      exists u, s3. split; [reflexivity|congruence]. }
  clear H. destruct Hfin as [u [s3 [Hd ->]]].
  pose proof (display_impl_drawn E false s2) as K. rewrite Hd in K.
  destruct K as [prompt [rpw [w [tw [b' [toks [tcl [J1 [J2 [J3 [J4 [J5 J6]]]]]]]]]]]].
  rewrite J2, J3 in HW. injection HW as ->.
  assert (Hs2 : is_search s2 = false).
  { unfold s2, s1, clear_search. unfold is_search in *. edsimp. reflexivity. }
  assert (b' = b) by (change (cur_buf s2) with (cur_buf s) in J4; congruence). subst b'.
  unfold search_prompt in J1. rewrite Hs2 in J1. injection J1 as <- <-.
  set (s4 := set_cursor (clamp_cursor (ed_noeol s2) (num_chars b) (ed_cursor s2)) s2) in *.
  assert (Hmove : forall z, drawable W cw (e_uni E) (pr_string (ed_prompt s)) pv z s -> drawable W cw (e_uni E) (pr_string (ed_prompt s)) pv z s4).
  { intros z Dz. destruct Dz as [D1 D2 D3 D4 D5 D6 D7 D8 D9]. constructor; assumption. }
  assert (Hcur : ed_cursor s4 <= length (data b) <= S (ed_cursor s4)).
  { unfold s4, s2. edsimp. unfold clamp_cursor, num_chars. destruct (ed_noeol s1); cbn [andb]; rewrite Nat.ltb_irrefl; try lia.
    destruct (Nat.eqb_spec (length (data b)) 0); cbn [negb andb]; [lia|]. rewrite Nat.eqb_refl. lia. }
  assert (Et : t = match ed_sugg s4 with Some g => data g | None => data b end).
  { unfold on_screen in Hon. change (ed_sugg s4) with (ed_sugg s). destruct (ed_sugg s) as [z|]; [exact Hon|]. destruct Hon as [b2 [Hb2 ->]]. congruence. }
  assert (Hr := enter_render W cw HW0 _ _ _ _ _ _ _ _ pv t J5 Hs2 Eh (Hmove t D) (Hmove _ Db) Et Hext Hsame Hcur Htcl).
  exists (toks ++ [TCRLF]). split; [rewrite J6; unfold shown; edsimp; rewrite app_assoc; reflexivity|].
  split; [rewrite J6; exact Hb|].
  intros T g HT r T'. destruct (Hr T g HT) as [G1 [G2 [R [G3 [G4 G5]]]]]. change (ed_tcl s4) with (ed_tcl s) in *. fold r in G1, G2, G3, G4, G5.
  eexists _, _. split; [exact G2|]. split.
  - rewrite G1. apply (puts_exact W cw HW0); [intros i j c c'; apply (cells_once W cw HW0)|intros i j c; apply (cells_row W cw HW0)].
  - unfold T'. rewrite G3. cbn [t_st t_col t_row]. split; [reflexivity|]. split; [reflexivity|]. split; [lia|].
    intros i j c K. specialize (G5 i j c K). lia.
Qed.

Lemma enter_session : forall W cw sb l E s s' pv b t, drawn sb l s -> Forall (plain W cw) l -> ed_tcl sb = 1 ->
  handle_newline E s = ORet true s' -> is_search s = false -> terminal_width (e_size E) = Some W ->
  cur_buf s = Val b -> on_screen s t -> (exists r, t = data b ++ r) ->
  drawable W cw (e_uni E) (pr_string (ed_prompt s)) pv t s -> drawable W cw (e_uni E) (pr_string (ed_prompt s)) pv (data b) s ->
  same_rows W pv (data b) t -> (N.of_nat (ed_tcl s) < 65536)%N ->
  exists toks, ed_tty s' = ed_tty sb ++ toks /\ cur_buf s' = Val b /\
  forall T g, t_st T = Ground ->
    let T' := shows W cw T toks in let g' := paints W cw T g (render_toks toks) in
    (forall i j, i < t_row T -> g' i j = g i j) /\
    exists r L e, t_row T <= r /\ (Forall (fun d => rd_clear d = false) l -> r = t_row T) /\
      laid W (length pv) (r, 0) (pv ++ data b) L e /\ (forall i j c, r <= i -> (g' i j = Some c <-> In (i, j, c) L)) /\
      t_col T' = 0 /\ r < t_row T' /\ forall i j c, In (i, j, c) L -> i < t_row T'.
Proof.
  intros W cw sb l E s s' pv b t Hd F Hsb H Hs HW Hb Hon Hext D Db Hsame Htcl.
  destruct (drawn_rows W cw sb l s Hd F Hsb) as [toks [K1 K2]].
  destruct (enter_screen W cw E s s' pv b t H Hs HW Hb Hon Hext D Db Hsame Htcl) as [more [Q1 [Q2 Q3]]].
  exists (toks ++ more). split; [rewrite Q1, K1, app_assoc; reflexivity|]. split; [exact Q2|]. intros T g HT T' g'.
  destruct (K2 T g HT) as [A1 [A2 [r [A3 [A4 [A5 _]]]]]].
  assert (Ep : g' = paints W cw (shows W cw T toks) (paints W cw T g (render_toks toks)) (render_toks more)).
  { unfold g'. unfold render_toks at 1. rewrite flat_map_app. apply paints_app. }
  destruct (Q3 _ (paints W cw T g (render_toks toks)) A1) as [L [e [B1 [[B2 B2'] [B3 [B4 [B5 B6]]]]]]].
  assert (Er : t_row (shows W cw T toks) - (ed_tcl s - 1) = r) by lia. rewrite Er in B1, B2, B2', B5.
  unfold T'. rewrite Ep, shows_app. split; [intros i j Hi; rewrite B2 by lia; apply A2; exact Hi|].
  exists r, L, e. repeat (split; [assumption|]). exact B6.
Qed.
