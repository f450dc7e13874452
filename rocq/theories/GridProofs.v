(** A redraw leaves on the screen what it draws and nothing else. *)
From Verif Require Import Base Utf8 BufferModel UtilModel UtilSpec UtilProofs HistoryModel EditorState EditorModel
  MonadLemmas EditorLemmas CursorProofs TextProofs Tests ScreenSpec ScreenProofs GridSpec.
Local Open Scope monad_scope.

Section Grid.
  Context (W : nat) (cw : char -> nat) (HW : 0 < W).
  Notation feeds := (feeds W cw).
  Notation paints := (paints W cw).
  Notation paint := (paint W cw).
  Notation nar := (narrow cw).

  Lemma paints_app : forall a b T g, paints T g (a ++ b) = paints (feeds T a) (paints T g a) b.
  Proof. induction a as [|c a IH]; intros b T g; [reflexivity|]. cbn [app GridSpec.paints]. rewrite IH. reflexivity. Qed.

  Definition puts (l : list (nat * nat * char)) (g : screen) : screen :=
    fold_left (fun g '(r, k, c) => put g r k c) l g.
  Lemma puts_app : forall a b g, puts (a ++ b) g = puts b (puts a g).
  Proof. intros. apply fold_left_app. Qed.

  (** Text without erasures. *)
  Inductive quiet : text -> Prop :=
  | quiet_nil : quiet []
  | quiet_char : forall c t, c <> c_esc -> quiet t -> quiet (c :: t)
  | quiet_seq : forall p f t, Forall param p -> ((64 <=? f) && (f <=? 126))%N = true -> f <> ch "J" -> quiet t -> quiet (csi (p ++ [f]) ++ t).
  Lemma quiet_app : forall a b, quiet a -> quiet b -> quiet (a ++ b).
  Proof.
    intros a b Ha Hb. induction Ha as [|c t Hc H IH|p f t Hp Hf Hj H IH]; cbn [app]; [exact Hb|constructor; assumption|].
    rewrite <- app_assoc. constructor; assumption.
  Qed.
  Lemma feed_one : forall T c, t_st T = Ground -> c <> c_esc ->
    t_log (feed W cw T c) = t_log T \/ exists e, t_log (feed W cw T c) = t_log T ++ [e].
  Proof.
    intros [r k l st] c H Hc. cbn [t_st] in H. subst st. unfold feed. cbn [t_st t_log t_row t_col].
    destruct (N.eqb_spec c c_esc) as [K|_]; [contradiction|].
    repeat match goal with |- context [if ?b then _ else _] => destruct b end; cbn [t_log]; try (left; reflexivity).
    unfold draw. destruct (cw c =? 0); [left; reflexivity|]. cbn [t_row t_col t_log]. destruct (W <? _); cbn [t_log]; right; eexists; reflexivity.
  Qed.
  Lemma quiet_params : forall p r k l q g, Forall param p -> paints (mkTerm r k l (Control q)) g p = g.
  Proof.
    induction p as [|c p IH]; intros r k l q g H; [reflexivity|]. inversion H as [|? ? Hc Hp]; subst. cbn [GridSpec.paints].
    assert (Hc2 : ((64 <=? c) && (c <=? 126))%N = false) by (apply andb_false_intro1; apply N.leb_gt; unfold param in Hc; lia).
    replace (paint (mkTerm r k l (Control q)) g c) with g.
    - unfold feed. cbn [t_st t_row t_col t_log]. rewrite Hc2. apply IH. exact Hp.
    - unfold GridSpec.paint. cbn [t_st]. destruct (N.eqb_spec c (ch "J")) as [->|_]; [discriminate Hc2|reflexivity].
  Qed.
  Lemma paints_csi : forall r k l g p f, Forall param p -> ((64 <=? f) && (f <=? 126))%N = true ->
    paints (mkTerm r k l Ground) g (csi (p ++ [f])) = if N.eqb f (ch "J") then wipe (number p) r (Nat.min k (W - 1)) g else g.
  Proof.
    intros r k l g p f Hp Hf. unfold csi.
    assert (E1 : paints (mkTerm r k l Ground) g (c_esc :: ch "[" :: p ++ [f]) = paints (mkTerm r k l (Control [])) g (p ++ [f])).
    { cbn [GridSpec.paints]. unfold GridSpec.paint at 1. change (feed W cw (mkTerm r k l Ground) c_esc) with (mkTerm r k l Escape). cbn [t_st].
      unfold GridSpec.paint at 1. cbn [t_st t_log]. rewrite skipn_all. reflexivity. }
    rewrite E1, paints_app, (feeds_params W cw HW) by exact Hp. rewrite (quiet_params p) by exact Hp. reflexivity.
  Qed.
  Lemma quiet_paints : forall t, quiet t -> forall T g, t_st T = Ground ->
    t_st (feeds T t) = Ground /\ exists l, t_log (feeds T t) = t_log T ++ l /\ paints T g t = puts l g.
  Proof.
    induction 1 as [|c t Hc H IH|p f t Hp Hf Hj H IH]; intros T g HT.
    - split; [exact HT|]. exists []. rewrite app_nil_r. split; reflexivity.
    - destruct (feed_ground W cw T c HT Hc) as [K1 _].
      destruct (IH (feed W cw T c) (paint T g c) K1) as [K2 [l [K3 K4]]]. split; [exact K2|].
      change (feeds T (c :: t)) with (feeds (feed W cw T c) t). cbn [GridSpec.paints]. rewrite K4.
      unfold GridSpec.paint. rewrite HT.
      destruct (feed_one T c HT Hc) as [K|[[[r k] c'] K]]; rewrite K in K3 |- *.
      + exists l. split; [exact K3|]. rewrite skipn_all. reflexivity.
      + exists ((r, k, c') :: l). split; [rewrite K3, <- app_assoc; reflexivity|]. rewrite skipn_app, skipn_all, Nat.sub_diag. reflexivity.
    - destruct T as [r k lg st]. cbn [t_st] in HT. subst st.
      assert (Hg : t_st (feeds (mkTerm r k lg Ground) (csi (p ++ [f]))) = Ground /\ t_log (feeds (mkTerm r k lg Ground) (csi (p ++ [f]))) = lg).
      { rewrite (feeds_csi W cw HW) by assumption. unfold control. cbn [t_row t_col t_log].
        repeat match goal with |- context [if ?b then _ else _] => destruct b end; split; reflexivity. }
      destruct Hg as [G1 G2]. destruct (IH _ g G1) as [K1 [l [K2 K3]]].
      rewrite feeds_app. split; [exact K1|]. exists l. rewrite G2 in K2. split; [exact K2|].
      rewrite paints_app, paints_csi by assumption. destruct (N.eqb_spec f (ch "J")) as [K|_]; [contradiction|]. exact K3.
  Qed.

  Lemma styled_quiet : forall t v, styled nar t v -> quiet t.
  Proof.
    induction 1 as [|c t v Hc H IH|p t v Hp H IH]; [constructor| |].
    - constructor; [|exact IH]. intros ->. destruct Hc as [K _]. unfold c_esc in K. lia.
    - replace (c_esc :: ch "[" :: p ++ ch "m" :: t) with (csi (p ++ [ch "m"]) ++ t) by (unfold csi; cbn [app]; rewrite <- app_assoc; reflexivity).
      constructor; [exact Hp|reflexivity|discriminate|exact IH].
  Qed.
  Definition quiets (l : list tok) : Prop := quiet (render_toks l).
  Lemma quiets_app : forall a b, quiets a -> quiets b -> quiets (a ++ b).
  Proof. intros a b Ha Hb. unfold quiets, render_toks. rewrite flat_map_app. apply quiet_app; assumption. Qed.
  Lemma quiets_cons : forall k l, quiet (render_tok k) -> quiets l -> quiets (k :: l).
  Proof. intros k l Hk Hl. apply (quiet_app (render_tok k)); assumption. Qed.
  Lemma quiet_csi : forall p f, Forall param p -> ((64 <=? f) && (f <=? 126))%N = true -> f <> ch "J" -> quiet (csi (p ++ [f])).
  Proof. intros p f H1 H2 H3. rewrite <- (app_nil_r (csi (p ++ [f]))). constructor; [exact H1|exact H2|exact H3|constructor]. Qed.
  Lemma quiet_move : forall n f, ((64 <=? f) && (f <=? 126))%N = true -> f <> ch "J" -> quiet (csi (decimal n ++ [f])).
  Proof. intros n f H1 H2. apply quiet_csi; [|exact H1|exact H2]. apply (digit_param W cw HW), decimal_digits. Qed.
  Lemma quiet_tok : forall k, match k with TUp _ | TLeft _ | TRight _ | TCRLF | TCR | TFgReset | TFg _ => True | _ => False end -> quiet (render_tok k).
  Proof.
    intros k H. destruct k as [x| |n|n|n| | | | | |n|n| |]; try contradiction; cbn [render_tok].
    - apply (quiet_move n (ch "A")); [reflexivity|discriminate].
    - apply (quiet_move n (ch "D")); [reflexivity|discriminate].
    - apply (quiet_move n (ch "C")); [reflexivity|discriminate].
    - repeat constructor; discriminate.
    - repeat constructor; discriminate.
    - unfold fg_str. change (str "m") with [ch "m"]. rewrite app_assoc.
      apply quiet_csi; [|reflexivity|discriminate]. apply (color_params W cw HW). repeat constructor; vm_compute; discriminate.
    - apply (quiet_csi (str "39") (ch "m")); [repeat constructor; vm_compute; discriminate|reflexivity|discriminate].
  Qed.

  Lemma bsplit_app : forall t n a b, bsplit t n = Val (a, b) -> t = a ++ b.
  Proof.
    induction t as [|c t IH]; intros [|n] a b H; cbn [bsplit] in H; try discriminate H; try (injection H as <- <-; reflexivity).
    destruct (_ <=? _); [|discriminate H].
    destruct (bsplit t _) as [[a' b']|] eqn:E; [|discriminate H]. injection H as <- <-. cbn [app]. f_equal. eapply IH. exact E.
  Qed.
  Lemma print_quiet : forall srch clos ind lines i k rem toks,
    (forall f x, clos = Some f -> Forall nar x -> styled nar (f x) x) -> Forall (Forall nar) lines ->
    print_lines srch clos ind i k rem lines = Val toks -> quiets toks.
  Proof.
    intros srch clos ind lines. induction lines as [|line lines IH]; intros i k rem toks Hcl Hn Hp; cbn [print_lines] in Hp.
    { injection Hp as <-. constructor. }
    inversion Hn as [|? ? Hl Hls]; subst.
    assert (Hsty : forall x, Forall nar x -> quiet x) by (intros x Hx; eapply styled_quiet, (styled_id cw); exact Hx).
    assert (Hc : forall x, Forall nar x -> quiet (match clos with Some f => f x | None => x end)).
    { intros x Hx. destruct clos as [f|]; [eapply styled_quiet, (Hcl f x eq_refl Hx)|apply Hsty; exact Hx]. }
    assert (Hpre : quiets (if 0 <? i then [TRight (u16_of ind)] else [])).
    { destruct (0 <? i); [apply quiets_cons; [apply quiet_tok; exact I|constructor]|constructor]. }
    assert (Hfin : quiets (if S i <? k then [TCRLF] else [])).
    { destruct (S i <? k); [apply quiets_cons; [apply quiet_tok; exact I|constructor]|constructor]. }
    assert (Hfg : forall b : bool, quiets (if b then [TFg 3] else []) /\ quiets (if b then [] else [TFg 3])).
    { assert (K : quiets [TFg 3]) by (apply quiets_cons; [apply quiet_tok; exact I|constructor]). intros [|]; split; try exact K; constructor. }
    assert (H1 : forall x, quiet x -> quiets [TStr x]) by (intros x Hx; apply quiets_cons; [exact Hx|constructor]).
    destruct (rem =? 0).
    - destruct (print_lines srch clos ind (S i) k 0 lines) as [r|] eqn:Er; [|discriminate]. injection Hp as <-.
      apply quiets_app; [exact Hpre|]. apply quiets_cons; [apply Hsty; exact Hl|]. apply quiets_app; [exact Hfin|eapply IH; eassumption].
    - destruct (rem <? blen line).
      + destruct (bsplit line rem) as [[a b]|] eqn:Eb; [|discriminate]. cbn [rbind] in Hp.
        destruct (print_lines srch clos ind (S i) k 0 lines) as [r|] eqn:Er; [|discriminate]. injection Hp as <-.
        rewrite (bsplit_app _ _ _ _ Eb) in Hl. apply Forall_app in Hl as [Ha Hb].
        apply quiets_app; [exact Hpre|]. apply quiets_app; [apply Hfg|]. apply quiets_cons; [apply Hc, Ha|].
        apply quiets_app; [apply Hfg|]. apply quiets_cons; [apply Hsty, Hb|]. apply quiets_app; [exact Hfin|eapply IH; eassumption].
      + destruct (print_lines srch clos ind (S i) k (rem - blen line) lines) as [r|] eqn:Er; [|discriminate]. injection Hp as <-.
        apply quiets_app; [exact Hpre|]. apply quiets_app; [apply Hfg|]. apply quiets_cons; [apply Hc, Hl|].
        apply quiets_app; [exact Hfin|eapply IH; eassumption].
  Qed.

  Lemma calm_quiet : forall l, Forall calm l -> quiets l.
  Proof.
    induction 1 as [|k l Hk Hl IH]; [constructor|]. apply quiets_cons; [|exact IH].
    destruct k as [x| |n|n|n| | | | | |n|n| |]; cbn [calm] in Hk; try contradiction; try (apply quiet_tok; exact I); cbn [render_tok].
    - induction x as [|c x IHx]; [constructor|]. constructor; [intros ->; apply Hk; left; reflexivity|]. apply IHx. intro K. apply Hk. right. exact K.
    - unfold bg_str. change (str "m") with [ch "m"]. rewrite app_assoc.
      apply quiet_csi; [|reflexivity|discriminate]. apply (color_params W cw HW). repeat constructor; vm_compute; discriminate.
    - apply (quiet_csi (str "49") (ch "m")); [repeat constructor; vm_compute; discriminate|reflexivity|discriminate].
  Qed.

  (** The parts of a redraw: the rows above it, the candidates, and what is
      drawn without candidates. *)
  Lemma render_parts : forall U w prompt rpw buf s toks tcl pv t,
    display_render U true W w prompt rpw buf s = Val (toks, tcl) ->
    drawable W cw U prompt pv t s ->
    t = match ed_sugg s with Some g => data g | None => data buf end ->
    exists up comp rest cl tcl0, toks = TModes :: up ++ TCR :: TClearAfter :: comp ++ rest /\ quiets comp /\ quiets rest /\ tcl = tcl0 + cl /\
      (up = [] /\ ed_tcl s <= 1 \/ up = [TUp (u16_of (ed_tcl s) - 1)] /\ 1 < ed_tcl s) /\
      display_render U true W w prompt rpw buf (set_hint None (set_tcl 1 s)) = Val (TModes :: TCR :: TClearAfter :: rest, tcl0) /\
      match ed_hint s with
      | None => comp = [] /\ cl = 0
      | Some (comps, i) => exists tk ln, print_completion_list w comps i = Val (tk, ln) /\ comp = tk ++ [TCRLF] /\ cl = S ln
      end.
  Proof.
    intros U w prompt rpw buf s toks tcl pv t H D Et. unfold display_render in *. edsimp. change (1 <? 1) with false. cbn [rbind].
    change (is_search (set_hint None (set_tcl 1 s))) with (is_search s).
    destruct (BufferModel.buf_width U buf) as [own|]; [|discriminate]. cbn [rbind] in *.
    match type of H with rbind ?m _ = _ => destruct m as [bw|]; [|discriminate] end. cbn [rbind] in *.
    match type of H with rbind ?m _ = _ => destruct m as [tcw|]; [|discriminate] end. cbn [rbind] in *. cbv zeta in *.
    destruct (if 1 <? ed_tcl s then _ else _) as [t_up|] eqn:Eup in H; [|discriminate]. cbn [rbind] in *.
    match type of H with rbind ?m _ = _ => destruct m as [[t_comp cl]|] eqn:Ecomp; [|discriminate] end. cbn [rbind] in *.
    match type of H with rbind (print_lines _ _ _ _ (length ?l) _ _) _ = _ => set (lines := l) in * end.
    destruct (print_lines _ _ _ 0 (length lines) (num_bytes buf) lines) as [t_lines|] eqn:Elines; [|discriminate]. cbn [rbind] in *.
    match type of H with rbind ?m _ = _ => destruct m as [up2|] eqn:Eup2; [|discriminate] end. cbn [rbind] in *.
    injection H as <- <-.
    assert (Hlines : lines = split_on c_nl t) by (unfold lines; subst t; destruct (ed_sugg s); reflexivity).
    eexists t_up, t_comp, _, cl, _. split; [reflexivity|].
    assert (Hcomp : quiets t_comp /\ match ed_hint s with
      | None => t_comp = [] /\ cl = 0
      | Some (comps, i) => exists tk ln, print_completion_list w comps i = Val (tk, ln) /\ t_comp = tk ++ [TCRLF] /\ cl = S ln
      end).
    { destruct (ed_hint s) as [[comps i]|] eqn:Eh; [|injection Ecomp as <- <-; split; [constructor|split; reflexivity]].
      destruct (print_completion_list w comps i) as [[tk ln]|] eqn:Ep; [|discriminate]. cbn [rbind] in Ecomp. injection Ecomp as <- <-.
      split; [|exists tk, ln; repeat split]. apply quiets_app; [|apply quiets_cons; [apply quiet_tok; exact I|constructor]].
      unfold print_completion_list in Ep. destruct (completion_cols w comps) as [cwd cols]. destruct (print_comps cwd cols 0 0 i comps) as [tk'|] eqn:Et'; [|discriminate].
      injection Ep as <- _. apply calm_quiet. exact (calm_comps _ _ _ _ _ _ _ Et' (dr_hint _ _ _ _ _ _ _ D _ _ Eh)). }
    destruct Hcomp as [Hcomp Hh]. split; [exact Hcomp|]. split; [|split; [reflexivity|split; [|split; [rewrite Nat.add_0_r; reflexivity|exact Hh]]]].
    - cbn [app]. apply quiets_cons; [cbn [render_tok]; eapply styled_quiet, (dr_prompt _ _ _ _ _ _ _ D)|].
      apply quiets_app; [eapply print_quiet; [|  |exact Elines]|].
      { intros f x Hf. apply (dr_closure _ _ _ _ _ _ _ D f x Hf). }
      { rewrite Hlines. apply split_narrow. apply (dr_text _ _ _ _ _ _ _ D). }
      repeat apply quiets_app.
      + destruct (ed_sugg s); [apply quiets_cons; [apply quiet_tok; exact I|constructor]|].
        destruct (is_search s); [apply quiets_cons; [apply quiet_tok; exact I|constructor]|constructor].
      + destruct (_ =? 0); [apply quiets_cons; [apply quiet_tok; exact I|constructor]|constructor].
      + destruct (_ <? _) in Eup2; [injection Eup2 as <-; apply quiets_cons; [apply quiet_tok; exact I|constructor]|].
        destruct (_ <? _) in Eup2; [discriminate|injection Eup2 as <-; constructor].
      + destruct (_ <? _)%Z; [apply quiets_cons; [apply quiet_tok; exact I|constructor]|].
        destruct (_ <? _)%Z; [apply quiets_cons; [apply quiet_tok; exact I|constructor]|constructor].
    - destruct (Nat.ltb_spec 1 (ed_tcl s)) as [K|K].
      + destruct (u16_of (ed_tcl s) =? 0)%N; [discriminate|]. injection Eup as <-. right. split; [reflexivity|exact K].
      + injection Eup as <-. left. split; [reflexivity|exact K].
  Qed.

  (** Cells drawn one after the other are different cells. *)
  Lemma fresh_inj : forall r0 a b, fresh W r0 a = fresh W r0 b -> a = b.
  Proof.
    intros r0 a b H. unfold fresh in H. injection H as H1 H2. pose proof (Nat.div_mod a W ltac:(lia)). pose proof (Nat.div_mod b W ltac:(lia)).
    assert (a / W = b / W) by lia. rewrite H, H0, H3, H2. reflexivity.
  Qed.
  Lemma cells_from : forall r0 ind t n p c, In (p, c) (cells W r0 ind n t) -> exists m, n <= m /\ p = fresh W r0 m.
  Proof.
    intros r0 ind. induction t as [|x t IH]; intros n p c H; cbn [cells] in H; [contradiction|].
    destruct (N.eqb x c_nl).
    - destruct (IH _ _ _ H) as [m [K1 K2]]. exists m. split; [|exact K2]. pose proof (up_ge W HW n). lia.
    - destruct H as [H|H]; [injection H as <- _; exists n; auto|]. destruct (IH _ _ _ H) as [m [K1 K2]]. exists m. split; [lia|exact K2].
  Qed.
  Lemma puts_other : forall l g i j, (forall c, ~ In (i, j, c) l) -> puts l g i j = g i j.
  Proof.
    induction l as [|[[r k] c] l IH]; intros g i j H; [reflexivity|]. change (puts ((r, k, c) :: l) g i j) with (puts l (put g r k c) i j).
    rewrite IH by (intros c' K; apply (H c'); right; exact K). unfold put.
    destruct (Nat.eqb_spec i r) as [->|]; [|reflexivity]. destruct (Nat.eqb_spec j k) as [->|]; [|reflexivity].
    exfalso. apply (H c). left. reflexivity.
  Qed.
  Lemma cells_once : forall r0 ind t n i j c c', In (i, j, c) (cells W r0 ind n t) -> In (i, j, c') (cells W r0 ind n t) -> c = c'.
  Proof.
    intros r0 ind. induction t as [|x t IH]; intros n i j c c' H H'; cbn [cells] in *; [contradiction|].
    destruct (N.eqb x c_nl); [eapply IH; eassumption|].
    assert (K : forall y z, (fresh W r0 n, x) = (i, j, y) -> In (i, j, z) (cells W r0 ind (S n) t) -> False).
    { intros y z K1 K2. assert (K1' : fresh W r0 n = (i, j)) by congruence. clear K1. rename K1' into K1. destruct (cells_from _ _ _ _ _ _ K2) as [m [K3 K4]]. rewrite <- K1 in K4. apply fresh_inj in K4. lia. }
    destruct H as [H|H], H' as [H'|H'].
    - congruence.
    - destruct (K _ _ H H').
    - destruct (K _ _ H' H).
    - eapply IH; eassumption.
  Qed.
  Lemma cells_row : forall r0 ind t n i j c, In (i, j, c) (cells W r0 ind n t) -> r0 <= i.
  Proof.
    intros r0 ind t n i j c H. destruct (cells_from _ _ _ _ _ _ H) as [m [_ K]]. unfold fresh in K. injection K as K _. rewrite K. apply Nat.le_add_r.
  Qed.
  Lemma puts_in : forall l g i j c, (forall c', In (i, j, c') l -> c' = c) -> In (i, j, c) l \/ g i j = Some c -> puts l g i j = Some c.
  Proof.
    induction l as [|[[r k] x] l IH]; intros g i j c H K; [destruct K as [[]|K]; exact K|].
    change (puts ((r, k, x) :: l) g i j) with (puts l (put g r k x) i j). apply IH; [intros c' K'; apply H; right; exact K'|].
    destruct K as [[K|K]|K]; [|left; exact K|]; right; unfold put.
    - injection K as -> -> ->. rewrite !Nat.eqb_refl. reflexivity.
    - destruct (Nat.eqb_spec i r) as [->|]; [|exact K]. destruct (Nat.eqb_spec j k) as [->|]; [|exact K].
      cbn [andb]. f_equal. apply H. left. reflexivity.
  Qed.
  Lemma puts_exact : forall r0 L g0, (forall i j c c', In (i, j, c) L -> In (i, j, c') L -> c = c') -> (forall i j c, In (i, j, c) L -> r0 <= i) ->
    exactly r0 L g0 (puts L (wipe 0 r0 0 g0)).
  Proof.
    intros r0 L g0 H1 H2. split.
    - intros i j Hi. rewrite puts_other.
      + unfold wipe. cbn [N.eqb]. destruct (Nat.ltb_spec r0 i); [lia|]. destruct (Nat.eqb_spec i r0); [lia|]. reflexivity.
      + intros c K. apply H2 in K. lia.
    - intros i j c Hi. split; [|intro K; apply puts_in; [intros c' K'; eapply H1; eassumption|left; exact K]]. intro H.
      assert (Hd : (exists c', In (i, j, c') L) \/ (forall c', ~ In (i, j, c') L)).
      { clear H H1 H2. induction L as [|[[r k] x] L IH]; [right; auto|].
        destruct IH as [[c' IH]|IH]; [left; exists c'; right; exact IH|].
        destruct (Nat.eq_dec r i) as [->|Hr]; [destruct (Nat.eq_dec k j) as [->|Hk]|].
        - left. exists x. left. reflexivity.
        - right. intros c' [K|K]; [injection K as K _; contradiction|exact (IH c' K)].
        - right. intros c' [K|K]; [injection K as K _; contradiction|exact (IH c' K)]. }
      destruct Hd as [[c' Hd]|Hd].
      + rewrite (puts_in L _ i j c') in H; [injection H as <-; exact Hd|intros c2 K; eapply H1; eassumption|left; exact Hd].
      + rewrite puts_other in H by exact Hd. unfold wipe in H. cbn [N.eqb] in H.
        replace ((r0 <? i) || (i =? r0) && (0 <=? j)) with true in H; [discriminate H|].
        symmetry. destruct (Nat.ltb_spec r0 i); [reflexivity|]. destruct (Nat.eqb_spec i r0); [reflexivity|lia].
  Qed.

  (** Candidates *)
  Lemma row_text : forall t r k l, Forall nar t -> k + length t <= W ->
    feeds (mkTerm r k l Ground) t = mkTerm r (k + length t) (l ++ map (fun j => (r, k + j, nth j t c_sp)) (seq 0 (length t))) Ground.
  Proof.
    induction t as [|c t IH]; intros r k l H Hk; [rewrite Nat.add_0_r, app_nil_r; reflexivity|].
    inversion H as [|? ? Hc Ht]; subst. cbn [length] in *. change (feeds (mkTerm r k l Ground) (c :: t)) with (feeds (feed W cw (mkTerm r k l Ground) c) t).
    rewrite (feed_narrow W cw HW) by exact Hc. destruct (Nat.ltb_spec W (k + 1)); [lia|]. rewrite IH by (exact Ht || lia).
    f_equal; [lia|]. cbn [seq map]. rewrite <- app_assoc. f_equal. cbn [app]. rewrite Nat.add_0_r. cbn [nth]. f_equal.
    rewrite <- seq_shift, map_map. apply map_ext. intro j. cbn [nth]. f_equal. f_equal. lia.
  Qed.
  Lemma pad_nth : forall com wd j, length com <= wd -> nth j (pad com wd) c_sp = nth j com c_sp.
  Proof.
    intros com wd j H. unfold pad. destruct (Nat.lt_ge_cases j (length com)) as [K|K]; [apply app_nth1; exact K|].
    rewrite app_nth2, (nth_overflow com) by exact K. apply nth_repeat.
  Qed.
  Lemma comps_shows : forall wd cols hl l i index q toks r lg, 0 < cols -> cols * wd <= W -> nar c_sp ->
    print_comps wd cols i index hl l = Val toks -> Forall (Forall nar) l -> Forall (fun c => length c <= wd) l ->
    i <= cols -> index = q * cols + i ->
    exists q' i', index + length l = q' * cols + i' /\ i' <= cols /\ (l <> [] -> 0 < i') /\
      shows W cw (mkTerm (r + q) (i * wd) lg Ground) toks = mkTerm (r + q') (i' * wd) (lg ++ listed cols wd r index l) Ground.
  Proof.
    intros wd cols hl. induction l as [|com l IH]; intros i index q toks r lg Hc Hw Hsp H Hn Hl Hi Hx; cbn [print_comps] in H.
    { injection H as <-. exists q, i. cbn [length listed]. rewrite app_nil_r. repeat split; [lia|exact Hi|congruence]. }
    inversion Hn as [|? ? Hn1 Hn2]; subst. inversion Hl as [|? ? Hl1 Hl2]; subst. cbv zeta in H.
    set (item := if match hl with Some h => q * cols + i =? h | None => false end
           then [TFg 0; TBg 7; TStr (pad com wd); TBgReset; TFgReset] else [TStr (pad com wd)]) in *.
    assert (Hlen : length (pad com wd) = wd) by (unfold pad; rewrite app_length, repeat_length; lia).
    assert (Hit : forall q1 i1 lg1, i1 < cols -> q1 * cols + i1 = q * cols + i ->
      shows W cw (mkTerm (r + q1) (i1 * wd) lg1 Ground) item =
        mkTerm (r + q1) (S i1 * wd) (lg1 ++ map (fun j => (r + (q * cols + i) / cols, (q * cols + i) mod cols * wd + j, nth j com c_sp)) (seq 0 wd)) Ground).
    { intros q1 i1 lg1 H1 H2.
      assert (E1 : (q * cols + i) / cols = q1) by (rewrite <- H2, Nat.div_add_l, Nat.div_small; lia).
      assert (E2 : (q * cols + i) mod cols = i1) by (rewrite <- H2, Nat.add_comm, Nat.mod_add, Nat.mod_small; lia).
      rewrite E1, E2.
      assert (Hb : feeds (mkTerm (r + q1) (i1 * wd) lg1 Ground) (pad com wd) =
        mkTerm (r + q1) (S i1 * wd) (lg1 ++ map (fun j => (r + q1, i1 * wd + j, nth j com c_sp)) (seq 0 wd)) Ground).
      { rewrite row_text.
        - rewrite Hlen. f_equal; [lia|]. f_equal. apply map_ext. intro j. rewrite pad_nth by exact Hl1. reflexivity.
        - unfold pad. apply Forall_app. split; [exact Hn1|]. apply Forall_forall. intros y Hy. apply repeat_spec in Hy. subst y. exact Hsp.
        - rewrite Hlen. assert (S i1 * wd <= cols * wd) by (apply Nat.mul_le_mono_r; lia). lia. }
      unfold item. destruct (match hl with Some h => q * cols + i =? h | None => false end).
      - rewrite shows_cons, (feeds_fg W cw HW), shows_cons, (feeds_bg W cw HW), shows_cons. cbn [render_tok]. rewrite Hb, shows_cons, shows_one.
        reflexivity.
      - rewrite shows_one. exact Hb. }
    destruct (Nat.eqb_spec i cols) as [->|Hne].
    - destruct (print_comps wd cols 1 (S (q * cols + cols)) hl l) as [tk|] eqn:Er; [|discriminate]. injection H as <-.
      destruct (IH 1 (S (q * cols + cols)) (S q) tk r
        (lg ++ map (fun j => (r + (q * cols + cols) / cols, (q * cols + cols) mod cols * wd + j, nth j com c_sp)) (seq 0 wd)) Hc Hw Hsp Er Hn2 Hl2 ltac:(lia) ltac:(lia))
        as [q' [i' [K1 [K2 [K3 K4]]]]].
      exists q', i'. cbn [length listed]. split; [lia|]. split; [exact K2|]. split.
      { intros _. destruct l as [|y l]; [|apply K3; discriminate]. cbn [length] in K1. destruct i' as [|i']; [|lia]. exfalso.
        assert (K5 : S (q * cols + cols) = q' * cols) by lia. cbn [print_comps] in Er. injection Er as <-. unfold shows, render_toks in K4. cbn in K4. injection K4 as K4 _.
        assert (q' = S q) by lia. subst q'. lia. }
      rewrite app_assoc, <- K4. rewrite shows_cons, feeds_crlf, shows_app.
      replace (S (r + q)) with (r + S q) by lia. rewrite <- (Hit (S q) 0 lg ltac:(lia) ltac:(lia)). reflexivity.
    - destruct (Nat.ltb_spec cols i); [lia|].
      destruct (print_comps wd cols (S i) (S (q * cols + i)) hl l) as [tk|] eqn:Er; [|discriminate]. injection H as <-.
      destruct (IH (S i) (S (q * cols + i)) q tk r
        (lg ++ map (fun j => (r + (q * cols + i) / cols, (q * cols + i) mod cols * wd + j, nth j com c_sp)) (seq 0 wd)) Hc Hw Hsp Er Hn2 Hl2 ltac:(lia) ltac:(lia))
        as [q' [i' [K1 [K2 [K3 K4]]]]].
      exists q', i'. cbn [length listed]. split; [lia|]. split; [exact K2|]. split.
      { intros _. destruct l as [|y l]; [|apply K3; discriminate]. cbn [length] in K1. destruct i' as [|i']; [|lia]. exfalso.
        cbn [print_comps] in Er. injection Er as <-. unfold shows, render_toks in K4. cbn in K4. injection K4 as K4 _.
        assert (q' = q) by lia. subst q'. lia. }
      rewrite app_assoc, <- K4. rewrite shows_app, (Hit q i lg ltac:(lia) eq_refl). reflexivity.
  Qed.
  Lemma listed_in : forall cols wd r comps i0 i j c, In (i, j, c) (listed cols wd r i0 comps) ->
    exists n com k, nth_error comps n = Some com /\ k < wd /\ i = r + (i0 + n) / cols /\ j = (i0 + n) mod cols * wd + k /\ c = nth k com c_sp.
  Proof.
    intros cols wd r. induction comps as [|com comps IH]; intros i0 i j c H; [contradiction|]. cbn [listed] in H. apply in_app_or in H as [H|H].
    - apply in_map_iff in H as [k [K1 K2]]. injection K1 as <- <- <-. apply in_seq in K2. exists 0, com, k. rewrite Nat.add_0_r. repeat split; lia.
    - destruct (IH _ _ _ _ H) as [n [com' [k [K1 [K2 [K3 [K4 K5]]]]]]]. exists (S n), com', k. rewrite <- Nat.add_succ_comm. repeat split; assumption.
  Qed.
  Lemma listed_once : forall cols wd r comps i j c c', 0 < cols -> In (i, j, c) (listed cols wd r 0 comps) -> In (i, j, c') (listed cols wd r 0 comps) -> c = c'.
  Proof.
    intros cols wd r comps i j c c' Hc H H'. apply listed_in in H as [n [com [k [K1 [K2 [K3 [K4 ->]]]]]]]. apply listed_in in H' as [n' [com' [k' [J1 [J2 [J3 [J4 ->]]]]]]].
    cbn [Nat.add] in *.
    assert (E : n mod cols = n' mod cols /\ k = k').
    { assert (E0 : (n mod cols * wd + k) / wd = (n' mod cols * wd + k') / wd) by (f_equal; lia). rewrite !Nat.div_add_l, !Nat.div_small in E0 by lia.
      split; [lia|]. assert (n mod cols = n' mod cols) by lia. rewrite K4, H in J4. lia. }
    destruct E as [E1 ->]. assert (E2 : n / cols = n' / cols) by lia.
    assert (n = n') by (rewrite (Nat.div_mod n cols), (Nat.div_mod n' cols), E1, E2 by lia; reflexivity). subst n'. congruence.
  Qed.
End Grid.

Definition rows_of (n cols : nat) : nat := (n + cols - 1) / cols.

Lemma redraw_grid : forall W cw E s u s' prompt n pv t w,
  display E s = ORet u s' -> e_size E = Some w -> terminal_width (e_size E) = Some W ->
  search_prompt (e_uni E) s' = Val (prompt, n) -> on_screen s' t -> drawable W cw (e_uni E) prompt pv t s' ->
  (N.of_nat (ed_tcl s) < 65536)%N ->
  exists toks comp cl, ed_tty s' = ed_tty s ++ toks /\
  match ed_hint s' with
  | None => comp = [] /\ cl = 0
  | Some (comps, i) => exists tk ln, print_completion_list w comps i = Val (tk, ln) /\ comp = tk ++ [TCRLF] /\ cl = S ln
  end /\
  forall T g r1 L0, t_st T = Ground -> 
    let r := t_row T - (ed_tcl s - 1) in
    (forall tl, shows W cw (mkTerm r 0 tl Ground) comp = mkTerm r1 0 (tl ++ L0) Ground) ->
      paints W cw T g (render_toks toks) = puts (L0 ++ cells W r1 (length pv) 0 (pv ++ t)) (wipe 0 r 0 g) /\
      laid W (length pv) (r1, 0) (pv ++ t) (cells W r1 (length pv) 0 (pv ++ t)) (fresh W r1 (endn W (length pv) 0 (pv ++ t))) /\
      t_st (shows W cw T toks) = Ground /\ t_row (shows W cw T toks) + cl + 1 = r1 + ed_tcl s'.
Proof.
  intros W cw E s u s' prompt n pv t w0 H Hw HW Hsp Hon D Htcl.
  assert (HW0 : 0 < W) by (destruct (e_size E) as [[|w]|]; cbn in HW; try discriminate; injection HW as <-; lia).
  destruct (display_impl_of _ _ _ _ H) as [y [Hg Hd]]. pose proof (display_impl_drawn E true (set_sugg y (refreshed s))) as K. rewrite Hd in K.
  destruct K as [prompt' [rpw [w [tw [b' [toks [tcl [J1 [J2 [J3 [J4 [J5 J6]]]]]]]]]]]].
  rewrite J2 in Hw. injection Hw as ->.
  rewrite J2, J3 in HW. injection HW as ->. edsimp_in J5. edsimp_in J6.
  set (s1 := refreshed s) in *. set (c := clamp_cursor (ed_noeol s1) (num_chars b') (ed_cursor s1)) in *.
  destruct (refreshed_same s) as [R1 [R2 R3]]. fold s1 in R1, R2, R3.
  assert (Eg : ed_sugg s' = y) by (rewrite J6; reflexivity).
  assert (Eh : ed_hint s' = ed_hint s1) by (rewrite J6; reflexivity).
  assert (Etcl : ed_tcl s' = tcl) by (rewrite J6; reflexivity).
  assert (Hsp' : search_prompt (e_uni E) s' = search_prompt (e_uni E) (set_sugg y s1)) by (rewrite J6; reflexivity).
  rewrite Hsp', J1 in Hsp. injection Hsp as -> ->.
  assert (Eb : cur_buf s' = Val b') by (rewrite J6, cur_buf_shown; exact J4).
  assert (Et : t = match y with Some z => data z | None => data b' end).
  { unfold on_screen in Hon. rewrite Eg in Hon. destruct y as [z|]; [exact Hon|]. destruct Hon as [b2 [Hb2 ->]]. congruence. }
  set (s2 := set_cursor c (set_sugg y s1)) in *.
  assert (D' : drawable W cw (e_uni E) prompt pv t s2 /\ drawable W cw (e_uni E) prompt pv t (set_hint None (set_tcl 1 s2))).
  { destruct D as [D1 D2 D3 D4 D5 D6 D7 D8 D9]. split; constructor; try assumption; try discriminate.
    - intros f z Hf. apply D4. rewrite J6. exact Hf.
    - intros comps i Hc. apply (D5 comps i). rewrite Eh. exact Hc.
    - intros f z Hf. apply D4. rewrite J6. exact Hf. }
  destruct D' as [D' D0].
  destruct (render_parts W cw HW0 _ _ _ _ _ _ _ _ _ _ J5 D' Et) as [up [comp [rest [cl [tcl0 [P1 [P2 [P3 [P4 [P5 [P6 P7]]]]]]]]]]].
  change (ed_tcl s2) with (ed_tcl s1) in P5. change (ed_hint s2) with (ed_hint s1) in P7. rewrite R1 in P5. rewrite <- Eh in P7.
  destruct (render_shows W cw HW0 _ _ _ _ _ _ _ _ _ _ P6 D0 Et) as [tc [cl0 [_ [X1 [X2 X3]]]]]. specialize (X2 eq_refl). subst cl0.
  exists toks, comp, cl. split; [rewrite J6; unfold shown; edsimp; rewrite R2; reflexivity|]. split; [exact P7|].
  intros T g r1 L0 HT r Hcomp.
  destruct T as [tr tk tl ts]. cbn [t_st] in HT. subst ts. cbn [t_row] in r.
  assert (Hup : exists ku, shows W cw (mkTerm tr tk tl Ground) up = mkTerm r ku tl Ground /\ paints W cw (mkTerm tr tk tl Ground) g (render_toks up) = g).
  { destruct P5 as [[-> P5]|[-> P5]].
    - exists tk. split; [|reflexivity]. unfold r. replace (tr - (ed_tcl s - 1)) with tr by lia. reflexivity.
    - rewrite shows_one, (feeds_up W cw HW0). eexists. split.
      + f_equal. unfold r, mov, u16_of. rewrite N.mod_small by exact Htcl. rewrite N.max_r by lia. lia.
      + unfold render_toks. cbn [flat_map]. rewrite app_nil_r. cbn [render_tok]. change (str "A") with [ch "A"].
        rewrite (paints_csi W cw HW0); [reflexivity|apply (digit_param W cw HW0), decimal_digits|reflexivity]. }
  destruct Hup as [ku [U1 U2]].
  assert (E0 : forall T0 g0 k l, paints W cw T0 g0 (render_toks (k :: l)) = paints W cw (feeds W cw T0 (render_tok k)) (paints W cw T0 g0 (render_tok k)) (render_toks l)).
  { intros T0 g0 k l. unfold render_toks. cbn [flat_map]. apply paints_app. }
  assert (E1 : paints W cw (mkTerm tr tk tl Ground) g (render_toks toks) = paints W cw (mkTerm r 0 tl Ground) (wipe 0 r 0 g) (render_toks (comp ++ rest))).
  { rewrite P1, E0, feeds_modes.
    replace (paints W cw (mkTerm tr tk tl Ground) g (render_tok TModes)) with g.
    2: { symmetry. change (render_tok TModes) with (csi (str "?1000" ++ [ch "l"]) ++ csi (str "?1" ++ [ch "l"])). rewrite paints_app.
         rewrite (paints_csi W cw HW0 tr tk tl g (str "?1000") (ch "l")); [|repeat constructor; vm_compute; discriminate|reflexivity].
         rewrite (feeds_csi W cw HW0 tr tk tl (str "?1000") (ch "l")); [|repeat constructor; vm_compute; discriminate|reflexivity].
         apply (paints_csi W cw HW0 tr tk tl g (str "?1") (ch "l")); [repeat constructor; vm_compute; discriminate|reflexivity]. }
    replace (render_toks (up ++ TCR :: TClearAfter :: comp ++ rest)) with (render_toks up ++ render_toks (TCR :: TClearAfter :: comp ++ rest)) by (unfold render_toks; rewrite (flat_map_app _ up); reflexivity).
    rewrite paints_app, U2. change (feeds W cw (mkTerm tr tk tl Ground) (render_toks up)) with (shows W cw (mkTerm tr tk tl Ground) up). rewrite U1.
    rewrite E0, feeds_cr. replace (paints W cw (mkTerm r ku tl Ground) g (render_tok TCR)) with g.
    2: { cbn [render_tok GridSpec.paints]. unfold paint. cbn [t_st t_log]. change (t_log (feed W cw (mkTerm r ku tl Ground) c_cr)) with tl. rewrite skipn_all. reflexivity. }
    rewrite E0, feeds_clear. change (render_tok TClearAfter) with (csi ([] ++ [ch "J"])).
    rewrite (paints_csi W cw HW0 r 0 tl g [] (ch "J")) by (constructor || reflexivity). reflexivity. }
  assert (Es : shows W cw (mkTerm tr tk tl Ground) toks = mkTerm (r1 + tc / W) (tc mod W) ((tl ++ L0) ++ cells W r1 (length pv) 0 (pv ++ t)) Ground).
  { destruct (X3 (mkTerm r1 0 (tl ++ L0) Ground) eq_refl) as [r0 [L1 [Y1 Y2]]]. destruct (Y2 eq_refl) as [-> Y3]. cbn [t_row t_log app] in Y1, Y3.
    change (ed_tcl (set_hint None (set_tcl 1 s2))) with 1 in Y3. specialize (Y3 ltac:(reflexivity)). rewrite Nat.sub_0_r in Y3. subst r0.
    rewrite <- Y1, P1, shows_cons, feeds_modes, shows_app, U1, shows_cons, feeds_cr, shows_cons, feeds_clear, shows_app, Hcomp.
    rewrite shows_cons, feeds_modes, shows_cons, feeds_cr, shows_cons, feeds_clear. reflexivity. }
  assert (Hin : In c_nl (pv ++ t) -> length pv < W).
  { intro K. apply in_app_or in K as [K|K]; [|apply (dr_lines _ _ _ _ _ _ _ D) in K; lia].
    pose proof (styled_narrow cw _ _ (dr_prompt _ _ _ _ _ _ _ D)) as F. rewrite Forall_forall in F. destruct (narrow_nl W cw HW0 (F _ K)). }
  split; [|split].
  - rewrite E1. assert (P23 : quiets (comp ++ rest)) by (apply quiets_app; assumption).
    destruct (quiet_paints W cw HW0 _ P23 (mkTerm r 0 tl Ground) (wipe 0 r 0 g) eq_refl) as [_ [l [Q1 Q2]]]. rewrite Q2. f_equal.
    assert (Es2 : shows W cw (mkTerm tr tk tl Ground) toks = feeds W cw (mkTerm r 0 tl Ground) (render_toks (comp ++ rest))).
    { rewrite P1, shows_cons, feeds_modes, shows_app, U1, shows_cons, feeds_cr, shows_cons, feeds_clear. reflexivity. }
    rewrite <- Es2, Es in Q1. cbn [t_log] in Q1. rewrite <- app_assoc in Q1. apply app_inv_head in Q1. symmetry. exact Q1.
  - pose proof (laid_cells W HW0 r1 (length pv) (pv ++ t) 0 Hin) as HL. unfold fresh in HL at 1. rewrite Nat.div_0_l, Nat.mod_0_l, Nat.add_0_r in HL by lia. exact HL.
  - rewrite Es. split; [reflexivity|]. cbn [t_row]. rewrite Etcl, P4, X1. lia.
Qed.

(** * C80 *)
Lemma redraw_exact : forall W cw E s u s' prompt n pv t,
  display E s = ORet u s' -> terminal_width (e_size E) = Some W ->
  search_prompt (e_uni E) s' = Val (prompt, n) -> on_screen s' t -> drawable W cw (e_uni E) prompt pv t s' ->
  ed_hint s' = None -> (N.of_nat (ed_tcl s) < 65536)%N ->
  exists toks, ed_tty s' = ed_tty s ++ toks /\
  forall T g, t_st T = Ground -> 
    let r := t_row T - (ed_tcl s - 1) in
    exists L e, laid W (length pv) (r, 0) (pv ++ t) L e /\
      exactly r L g (paints W cw T g (render_toks toks)) /\
      t_st (shows W cw T toks) = Ground /\ t_row (shows W cw T toks) = r + (ed_tcl s' - 1).
Proof.
  intros W cw E s u s' prompt n pv t H HW Hsp Hon D Hh Htcl.
  destruct (e_size E) as [w|] eqn:Hw; [|discriminate HW]. rewrite <- Hw in HW.
  assert (HW0 : 0 < W) by (rewrite Hw in HW; destruct w; injection HW as <-; lia).
  destruct (redraw_grid W cw E s u s' prompt n pv t w H Hw HW Hsp Hon D Htcl) as [toks [comp [cl [K1 [K2 K3]]]]].
  rewrite Hh in K2. destruct K2 as [-> ->]. exists toks. split; [exact K1|]. intros T g HT r.
  destruct (K3 T g r [] HT ltac:(intro tl; rewrite app_nil_r; reflexivity)) as [G1 [G2 [G3 G4]]].
  eexists _, _. split; [exact G2|]. rewrite G1. split; [|split; [exact G3|]].
  - cbn [app]. apply (puts_exact W cw HW0); [intros i j c c'; apply (cells_once W cw HW0)|intros i j c; apply (cells_row W cw HW0)].
  - pose proof (display_shows W cw E s u s' prompt n pv t H HW Hsp Hon D) as [toks' [tc [x [b [cl [_ [_ [_ [_ [_ [_ [_ [K8 _]]]]]]]]]]]]].
    assert (0 < ed_tcl s') by (rewrite K8; cbn [Nat.add]; apply Nat.lt_0_succ). clear K8. fold r. lia.
Qed.

(** * C81 *)
Lemma columns_fit : forall W comps m, 4 <= W -> 0 < m -> 2 * m <= W -> longest comps m ->
  let wd := 2 + W / (W / m) in
  completion_cols W comps = (wd, W / wd) /\ 0 < W / wd /\ (W / wd) * wd <= W /\ m <= wd.
Proof.
  intros W comps m HW Hm Hm2 [H1 [c0 [H2 H3]]] wd.
  assert (Hf : forall l a, fold_left (fun m x => Nat.max m (length x)) l a = Nat.max a (fold_left (fun m (x : text) => Nat.max m (length x)) l 0)).
  { induction l as [|x l IH]; intro a; cbn [fold_left]; [lia|]. rewrite IH, (IH (Nat.max 0 _)). lia. }
  assert (Hb : forall l : list text, (forall c, In c l -> length c <= m) -> fold_left (fun m x => Nat.max m (length x)) l 0 <= m).
  { induction l as [|x l IH]; intro K; cbn [fold_left]; [lia|]. rewrite Hf. pose proof (K x (or_introl eq_refl)). specialize (IH ltac:(intros; apply K; right; assumption)). lia. }
  assert (Ha : forall l c, In c l -> length c <= fold_left (fun m (x : text) => Nat.max m (length x)) l 0).
  { induction l as [|x l IH]; intros c K; [contradiction|]. cbn [fold_left]. rewrite Hf. destruct K as [->|K]; [lia|]. specialize (IH c K). lia. }
  assert (E : fold_left (fun m x => Nat.max m (length x)) comps 1 = m).
  { rewrite Hf. pose proof (Hb comps H1). pose proof (Ha comps c0 H2). lia. }
  assert (D1 : 2 <= W / m) by (apply Nat.div_le_lower_bound; lia).
  assert (D2 : W / (W / m) <= W / 2) by (apply Nat.div_le_compat_l; lia).
  assert (D3 : W / 2 <= W - 2) by (apply Nat.div_le_upper_bound; lia).
  assert (D4 : 1 <= W / wd) by (apply Nat.div_le_lower_bound; unfold wd; lia).
  assert (D5 : m <= W / (W / m)) by (apply Nat.div_le_lower_bound; [lia|]; rewrite Nat.mul_comm; apply Nat.mul_div_le; lia).
  split; [|split; [exact D4|split; [rewrite Nat.mul_comm; apply Nat.mul_div_le; unfold wd; lia|unfold wd; lia]]].
  unfold completion_cols. rewrite E. cbv zeta. rewrite (Nat.max_r 1 (W / m)) by lia. fold wd. rewrite (Nat.max_r 1 (W / wd)) by lia. reflexivity.
Qed.
Lemma rows_last : forall n cols q i, 0 < cols -> n = q * cols + i -> 0 < i -> i <= cols ->
  rows_of n cols = S q /\ (if n mod cols =? 0 then 1 else 0) + S q = S (n / cols).
Proof.
  intros n cols q i Hc -> Hi Hi2. unfold rows_of. split.
  - replace (q * cols + i + cols - 1) with (S q * cols + (i - 1)) by lia. rewrite Nat.div_add_l, Nat.div_small; lia.
  - destruct (Nat.eq_dec i cols) as [->|Hne].
    + replace (q * cols + cols) with (S q * cols) by lia. rewrite Nat.mod_mul, Nat.div_mul by lia. reflexivity.
    + replace (q * cols + i) with (i + q * cols) by lia. rewrite Nat.mod_add, Nat.mod_small, (Nat.div_add i), Nat.div_small by lia. destruct (Nat.eqb_spec i 0); lia.
Qed.

Lemma redraw_listed : forall W cw E s u s' prompt n pv t comps hl m,
  display E s = ORet u s' -> e_size E = Some W -> 4 <= W ->
  search_prompt (e_uni E) s' = Val (prompt, n) -> on_screen s' t -> drawable W cw (e_uni E) prompt pv t s' ->
  ed_hint s' = Some (comps, hl) -> Forall (Forall (narrow cw)) comps -> narrow cw c_sp -> longest comps m -> 0 < m -> 2 * m <= W ->
  (N.of_nat (ed_tcl s) < 65536)%N ->
  let wd := 2 + W / (W / m) in let cols := W / wd in let rows := (length comps + cols - 1) / cols in
  exists toks, ed_tty s' = ed_tty s ++ toks /\
  forall T g, t_st T = Ground -> 
    let r := t_row T - (ed_tcl s - 1) in
    exists L e, laid W (length pv) (r + rows, 0) (pv ++ t) L e /\
      exactly r (listed cols wd r 0 comps ++ L) g (paints W cw T g (render_toks toks)) /\
      t_st (shows W cw T toks) = Ground /\
      t_row (shows W cw T toks) - (ed_tcl s' - 1) = (if length comps mod cols =? 0 then r - 1 else r).
Proof.
  intros W cw E s u s' prompt n pv t comps hl m H Hw HW4 Hsp Hon D Hh Hn Hspc Hm Hm0 Hm2 Htcl wd cols rows.
  assert (HW0 : 0 < W) by lia.
  assert (HW : terminal_width (e_size E) = Some W) by (rewrite Hw; destruct W; [lia|reflexivity]).
  destruct (redraw_grid W cw E s u s' prompt n pv t W H Hw HW Hsp Hon D Htcl) as [toks [comp [cl [K1 [K2 K3]]]]].
  rewrite Hh in K2. destruct K2 as [tk [ln [P1 [-> ->]]]].
  destruct (columns_fit W comps m HW4 Hm0 Hm2 Hm) as [C1 [C2 [C3 C4]]]. fold wd in C1, C2, C3, C4. fold cols in C1, C2, C3.
  unfold print_completion_list in P1. rewrite C1 in P1. destruct (print_comps wd cols 0 0 hl comps) as [tk'|] eqn:Ec; [|discriminate]. injection P1 as <- <-.
  assert (Hlen : Forall (fun c => length c <= wd) comps) by (apply Forall_forall; intros c Hc; destruct Hm as [Hm _]; specialize (Hm c Hc); lia).
  assert (Hne : comps <> []) by (destruct Hm as [_ [c [Hm _]]]; destruct comps; [contradiction|discriminate]).
  exists toks. split; [exact K1|]. intros T g HT r.
  destruct (comps_shows W cw HW0 wd cols hl comps 0 0 0 tk' r [] C2 C3 Hspc Ec Hn Hlen ltac:(lia) eq_refl) as [q [i [Q1 [Q2 [Q3 _]]]]].
  specialize (Q3 Hne). cbn [Nat.add] in Q1. destruct (rows_last _ _ _ _ C2 Q1 Q3 Q2) as [Q4 Q5]. unfold rows_of in Q4. fold rows in Q4.
  assert (Hc : forall tl, shows W cw (mkTerm r 0 tl Ground) (tk' ++ [TCRLF]) = mkTerm (r + rows) 0 (tl ++ listed cols wd r 0 comps) Ground).
  { intro tl. rewrite shows_app. destruct (comps_shows W cw HW0 wd cols hl comps 0 0 0 tk' r tl C2 C3 Hspc Ec Hn Hlen ltac:(lia) eq_refl) as [q2 [i2 [J1 [J2 [J3 J4]]]]].
    rewrite Nat.add_0_r in J4. cbn [Nat.mul] in J4. rewrite J4, shows_one, feeds_crlf. specialize (J3 Hne). cbn [Nat.add] in J1.
    destruct (rows_last _ _ _ _ C2 J1 J3 J2) as [J5 _]. unfold rows_of in J5. fold rows in J5. rewrite J5, Nat.add_succ_r. reflexivity. }
  destruct (K3 T g (r + rows) (listed cols wd r 0 comps) HT Hc) as [G1 [G2 [G3 G4]]].
  eexists _, _. split; [exact G2|]. rewrite G1. split; [|split; [exact G3|]].
  - assert (HR : forall i j c, In (i, j, c) (listed cols wd r 0 comps) -> r <= i < r + rows).
    { intros i0 j c Hin. apply (listed_in W HW0) in Hin as [n0 [com [k [N1 [_ [N2 _]]]]]]. cbn [Nat.add] in N2.
      assert (n0 < length comps) by (apply nth_error_Some; congruence).
      assert (Hq : n0 / cols <= q).
      { apply Nat.lt_succ_r. apply Nat.div_lt_upper_bound; [lia|]. assert (cols * S q = q * cols + cols) by lia. lia. }
      rewrite N2, Q4. split; [apply Nat.le_add_r|]. apply Nat.add_lt_mono_l, Nat.lt_succ_r. exact Hq. }
    apply (puts_exact W cw HW0).
    + intros i0 j c c' I1 I2. apply in_app_or in I1, I2. destruct I1 as [I1|I1], I2 as [I2|I2].
      * eapply (listed_once W HW0); [exact C2|exact I1|exact I2].
      * apply HR in I1. apply (cells_row W cw HW0) in I2. lia.
      * apply HR in I2. apply (cells_row W cw HW0) in I1. lia.
      * eapply (cells_once W cw HW0); eassumption.
    + intros i0 j c I1. apply in_app_or in I1 as [I1|I1]; [apply HR in I1; lia|apply (cells_row W cw HW0) in I1; lia].
  - pose proof (display_shows W cw E s u s' prompt n pv t H HW Hsp Hon D) as [toks' [tc [x [b [cl [_ [_ [_ [_ [_ [_ [_ [K8 _]]]]]]]]]]]]].
    assert (Hp : 0 < ed_tcl s') by (rewrite K8; cbn [Nat.add]; apply Nat.lt_0_succ). clear K8.
    rewrite Q4 in G4. fold r. revert G4 Q5 Hp. generalize (length comps / cols), (t_row (shows W cw T toks)), (ed_tcl s'). destruct (length comps mod cols =? 0); intros; lia.
Qed.
