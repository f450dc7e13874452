(** Proofs for C76. *)
From Verif Require Import Base Utf8 BufferModel UtilModel HistoryModel EditorState EditorModel KeymapModel ViModel
  MonadLemmas EditorLemmas CursorProofs Lemmas BufferSpec UtilSpec HistorySpec HistoryProofs HistoryFiles EditorSpec EditorProofs SessionProofs
  BrowseProofs EditorOps ViEffects WalkSpec WalkProofs ReplModel ReplSpec.
Local Open Scope monad_scope.

(** * One line *)
Lemma new_history_err : forall E p f ib h w cb ttys e s,
  editor_new E p f ib h w cb ttys = OErr e s -> h_share h = false -> ed_history s = h /\ ed_fs s = w.
Proof.
  intros E p f ib h w cb ttys e s H Hsh. unfold editor_new in H. cbv zeta in H.
  destruct (negb (e_wok E)); [unfold fail in H; injection H as _ <-; split; reflexivity|].
  match type of H with ?m ?s0 = _ =>
    assert (K : keeps frame m);
    [|specialize (K s0); rewrite H in K; split; [exact (fr_history _ _ K Hsh)|exact (fr_fs _ _ K)]] end.
  pose proof (keeps_move_end E). kp.
Qed.

Lemma result_same : forall {K} (m : MK K bool) x h w,
  match m x with ORet _ y | OErr _ y => ed_history (snd y) = h /\ ed_fs (snd y) = w | _ => True end ->
  match (m ;;; s <- gete ;; liftr (ed_result s)) x with
  | ORet _ y | OErr _ y => ed_history (snd y) = h /\ ed_fs (snd y) = w | _ => True end.
Proof.
  intros K m x h w H. unfold bind at 1. destruct (m x) as [d [k s]| | |]; auto.
  unfold bind, gete, liftr. destruct (ed_result s); auto.
Qed.

Lemma read_same : forall vk p f h w cb ttys r, h_share h = false ->
  match context_read_line vk p f h w cb ttys r with
  | ORet _ s | OErr _ s => ed_history s = h /\ ed_fs s = w
  | _ => True
  end.
Proof.
  intros vk p f h w cb ttys [E ks] Hsh. unfold context_read_line, vi_read_line, emacs_read_line, read_line. cbn [r_env r_keys].
  destruct (editor_new E p f buf_new h w cb ttys) as [[] s|e s| |] eqn:En; try (destruct vk; exact I).
  - destruct vk.
    + pose proof (vi_history _ _ _ _ _ _ _ _ _ ks En Hsh) as K.
      pose proof (result_same (vi_init E ;;; run_keys vi_core ks) (vi_new, s) h w) as R.
      assert (A : forall (a : MV unit) (b : MV bool) (c : MV text) z, (a ;;; b ;;; c) z = ((a ;;; b) ;;; c) z).
      { intros a b c z. unfold bind. destruct (a z); reflexivity. }
      rewrite A. revert R. generalize (((vi_init E ;;; run_keys vi_core ks) ;;; s0 <- gete ;; liftr (ed_result s0)) (vi_new, s)).
      intros o R. assert (R' : match o with ORet _ y | OErr _ y => ed_history (snd y) = h /\ ed_fs (snd y) = w | _ => True end).
      { apply R. destruct ((vi_init E ;;; run_keys vi_core ks) (vi_new, s)) as [? [? ?]|? [? ?]| |]; auto. }
      destruct o as [t [k y]|e [k y]| |]; auto.
    + pose proof (emacs_history _ _ _ _ _ _ _ _ _ ks En Hsh) as K.
      pose proof (result_same (run_keys emacs_core ks) (emacs_new, s) h w) as R.
      change ((ret tt ;;; run_keys emacs_core ks ;;; s0 <- gete ;; liftr (ed_result s0)) (emacs_new, s))
        with ((run_keys emacs_core ks ;;; s0 <- gete ;; liftr (ed_result s0)) (emacs_new, s)).
      revert R. generalize ((run_keys emacs_core ks ;;; s0 <- gete ;; liftr (ed_result s0)) (emacs_new, s)).
      intros o R. assert (R' : match o with ORet _ y | OErr _ y => ed_history (snd y) = h /\ ed_fs (snd y) = w | _ => True end).
      { apply R. destruct (run_keys emacs_core ks (emacs_new, s)) as [? [? ?]|? [? ?]| |]; auto. }
      destruct o as [t [k y]|e [k y]| |]; auto.
  - destruct (new_history_err _ _ _ _ _ _ _ _ _ _ En Hsh) as [K1 K2]. destruct vk; auto.
Qed.

(** * The loop *)
Definition standing_ok (R : history -> fs -> list text -> Prop) (z : standing) : Prop :=
  match z with Left h w L | Waiting _ h w _ _ L => R h w L | Panicked => True end.

(** What holds for a pushed history. *)
Lemma push_private : forall w h b, private_history h ->
  let h' := fst (hist_push w h b) in
  snd (hist_push w h b) = w /\ private_history h' /\
  h_maxbuf h' = h_maxbuf h /\ h_maxfile h' = h_maxfile h /\ h_appdup h' = h_appdup h /\ h_inc h' = h_inc h /\ h_file h' = h_file h /\
  h_loaddup h' = h_loaddup h /\ (nothing_to_undo h -> actions b = [] -> undone b = [] -> nothing_to_undo h').
Proof.
  intros w h b [P1 [P2 [P3 P4]]]. rewrite push_nofile by assumption.
  destruct (negb (h_appdup h) && back_is (buffers h) (data b)); cbv zeta; cbn [fst snd].
  - repeat split; auto.
  - set (l := skipn _ _). assert (Hl : length l <= h_maxbuf h).
    { unfold l. rewrite skipn_length. lia. }
    split; [reflexivity|]. split.
    { split; [exact P1|]. split; [exact P2|]. split; [exact P3|]. unfold texts. rewrite map_length. exact Hl. }
    do 6 (split; [reflexivity|]). intros U A1 A2. unfold nothing_to_undo. cbn [buffers set_buffers].
    assert (F : Forall (fun b0 => actions b0 = [] /\ undone b0 = []) (buffers h ++ [b])).
    { apply Forall_app. split; [exact U|]. constructor; [auto|constructor]. }
    unfold l. rewrite <- (firstn_skipn (length (buffers h ++ [b]) - h_maxbuf h) (buffers h ++ [b])) in F.
    apply Forall_app in F. apply F.
Qed.
Lemma pushes_snoc : forall l w h b, pushes w h (l ++ [b]) = hist_push (snd (pushes w h l)) (fst (pushes w h l)) b.
Proof.
  induction l as [|a l IH]; intros w h b; cbn [app pushes].
  - cbn [fst snd]. destruct (hist_push w h b). reflexivity.
  - destruct (hist_push w h a) as [h1 w1]. rewrite IH. destruct (pushes w1 h1 l). reflexivity.
Qed.

(** The state of the loop is that of pushing the lines. *)
Definition pushed (h0 : history) (w0 : fs) (h : history) (w : fs) (L : list text) : Prop :=
  (h, w) = pushes w0 h0 (map buf_of L) /\ w = w0 /\ private_history h /\ h_maxbuf h = h_maxbuf h0 /\ h_maxfile h = h_maxfile h0 /\
  h_inc h = h_inc h0 /\ h_file h = h_file h0 /\ (nothing_to_undo h0 -> nothing_to_undo h).
Lemma loop_pushed : forall h0 w0 p f rs vk h w cb ttys L, pushed h0 w0 h w L ->
  standing_ok (pushed h0 w0) (main_loop p f rs vk h w cb ttys L).
Proof.
  intros h0 w0 p f rs. induction rs as [|r rs IH]; intros vk h w cb ttys L H; cbn [main_loop]; [exact H|].
  pose proof (read_same vk p f h w cb ttys r (proj1 (proj1 (proj2 (proj2 H))))) as S.
  destruct (context_read_line vk p f h w cb ttys r) as [t s|[| |] s| |]; try exact I.
  - destruct S as [-> ->]. destruct (_ || _); [exact H|].
    destruct H as [H1 [H2 [H3 [H4 [H5 [H6 [H7 H8]]]]]]].
    destruct (push_private w h (buf_of t) H3) as [K1 [K2 [K3 [K4 [_ [K5 [K6 [_ K7]]]]]]]].
    destruct (hist_push w h (buf_of t)) as [h' w'] eqn:Ep. cbn [fst snd] in *. apply IH.
    split. { rewrite map_app. cbn [map]. rewrite pushes_snoc, <- H1. cbn [fst snd]. congruence. }
    split; [congruence|]. split; [exact K2|]. split; [congruence|]. split; [congruence|]. split; [congruence|]. split; [congruence|].
    intro U. apply K7; [apply H8; exact U|reflexivity|reflexivity].
  - destruct S as [-> ->]. apply IH. exact H.
  - destruct S as [-> ->]. exact H.
Qed.

Lemma loop_from : forall p f rs vk h w cb ttys, private_history h ->
  standing_ok (pushed h w) (main_loop p f rs vk h w cb ttys []).
Proof.
  intros p f rs vk h w cb ttys H. apply loop_pushed. split; [reflexivity|]. split; [reflexivity|]. split; [exact H|].
  repeat (split; [reflexivity|]). auto.
Qed.
Lemma pushed_remembers : forall h0 w0 h w L, private_history h0 -> pushed h0 w0 h w L -> remembered h0 (texts h0) L (texts h).
Proof.
  intros h0 w0 h w L [_ [P2 [P3 P4]]] [H _]. unfold remembered.
  pose proof (pushes_newest (map buf_of L) w0 h0 (texts h0) P2 P3 (newest_all _ _ P4)) as K.
  rewrite <- H in K. cbn [fst] in K. rewrite map_map in K. cbn [data buf_of] in K. rewrite map_id in K. exact K.
Qed.

Lemma loop_history : forall p f rs vk h w cb ttys, private_history h ->
  match main_loop p f rs vk h w cb ttys [] with
  | Left h' w' L | Waiting _ h' w' _ _ L => w' = w /\ remembered h (texts h) L (texts h')
  | Panicked => True
  end.
Proof.
  intros p f rs vk h w cb ttys H. pose proof (loop_from p f rs vk h w cb ttys H) as K. unfold standing_ok in K.
  destruct (main_loop p f rs vk h w cb ttys []); auto; (split; [apply K|eapply pushed_remembers; [exact H|exact K]]).
Qed.

(** * Recalling *)
Lemma private_of : forall p f rs vk h w cb ttys vk' h' w' cb' ttys' L, private_history h ->
  main_loop p f rs vk h w cb ttys [] = Waiting vk' h' w' cb' ttys' L -> private_history h' /\ remembered h (texts h) L (texts h').
Proof.
  intros p f rs vk h w cb ttys vk' h' w' cb' ttys' L H E. pose proof (loop_from p f rs vk h w cb ttys H) as K. rewrite E in K.
  split; [apply K|eapply pushed_remembers; [exact H|exact K]].
Qed.

(** Up, [n] times. *)
Lemma run_keys_app : forall {K} (core : env -> key -> MK K unit) l l' x,
  run_keys core (l ++ l') x = bind (run_keys core l) (fun d => if d : bool then ret true else run_keys core l') x.
Proof.
  intros K core l. induction l as [|[E k] l IH]; intros l' x; cbn [app run_keys]; [reflexivity|].
  unfold bind in *. destruct (handle_key core E k x) as [[|] y| | |]; auto.
Qed.
Definition ups (Es : list env) : list (env * key) := map (fun E => (E, KUp)) Es.
Lemma ups_walk : forall {K} (nav : K -> key -> option bool) st ed_ (core : env -> key -> MK K unit) n (P : K -> Prop),
  (forall k, P k -> nav k KUp = Some true) ->
  (forall E x d y, P (fst x) -> handle_key core E KUp x = ORet d y -> d = false /\ P (fst y)) ->
  forall Es x p d y, P (fst x) -> p <= n -> run_keys core (ups Es) x = ORet d y ->
  d = false /\ P (fst y) /\ walk nav st ed_ core n x p y (Nat.min n (p + length Es)).
Proof.
  intros K nav st ed_ core n P HN HP Es. induction Es as [|E Es IH] using rev_ind; intros x p d y Hx Hp H.
  - injection H as <- <-. split; [reflexivity|]. split; [exact Hx|]. cbn [length]. rewrite Nat.add_0_r, Nat.min_r by exact Hp. apply walk_nil.
  - unfold ups in H. rewrite map_app, run_keys_app in H. apply bind_inv in H as [d1 [z [H1 H2]]].
    destruct (IH x p d1 z Hx Hp H1) as [-> [Hz W]]. cbn [map run_keys] in H2.
    apply bind_inv in H2 as [d2 [y' [H2 H3]]]. destruct (HP _ _ _ _ Hz H2) as [-> Hy]. injection H3 as <- <-.
    split; [reflexivity|]. split; [exact Hy|]. rewrite app_length. cbn [length].
    replace (Nat.min n (p + (length Es + 1))) with (Nat.min n (S (Nat.min n (p + length Es)))) by lia.
    eapply walk_up; [exact W|apply HN; exact Hz|exact H2].
Qed.

(** A new line is empty and shows no history. *)
Definition blank (s : ed) : Prop := is_search s = false /\ ed_loc s = None /\ data (ed_new s) = [].
Lemma blank_view : forall s b c e, view s b c e -> ed_loc s = None -> data b = [] -> blank s.
Proof.
  intros s b c e V Hl Hd. pose proof V as [H1 _]. destruct (view_line _ _ _ _ V) as [b0 [H2 H3]].
  unfold cur_buf in H2. rewrite Hl in H2. injection H2 as <-. split; [exact H1|]. split; [exact Hl|congruence].
Qed.
Lemma blank_new : forall E p f h w cb ttys s, editor_new E p f buf_new h w cb ttys = ORet tt s -> blank s.
Proof.
  intros E p f h w cb ttys s H. unfold editor_new in H. cbv zeta in H. destruct (negb (e_wok E)); [discriminate|].
  apply bind_inv in H as [n [s1 [H1 H]]]. unfold liftr in H1. destruct (sub_chk _ _); [|discriminate]. injection H1 as _ <-.
  apply bind_inv in H as [[] [s2 [H2 H]]]. cbn [buf_is_empty buf_new data negb when nonempty] in H.
  match type of H2 with _ ?s0 = _ => assert (V0 : view s0 buf_new 0 false);
    [split; [reflexivity|]; split; [exists buf_new; split; reflexivity|]; split; reflexivity|];
    assert (L0 : ed_loc s0 = None) by reflexivity; revert V0 L0 H2; generalize s0 end.
  intros s0 V0 L0 H2. unfold tty_write in H2. destruct (e_wok E); [|discriminate]. injection H2 as <-.
  assert (V1 : view (set_tty (ed_tty s0 ++ init_toks n (pr_prompt p)) s0) buf_new 0 false) by exact V0.
  apply bind_inv in H as [[] [s3 [H3 H]]]. injection H3 as <-.
  destruct (ok_of _ _ _ _ _ (ok_display E _ _ _ _ V1) H) as [V2 [S _]].
  eapply blank_view; [exact V2| |reflexivity]. rewrite (proj1 S). exact L0.
Qed.
Lemma blank_view_of : forall s, blank s -> view s (ed_new s) (ed_cursor s) (ed_noeol s).
Proof.
  intros s [H1 [H2 H3]]. split; [exact H1|]. split; [|auto]. exists (ed_new s). unfold cur_buf, opened. rewrite H2. auto.
Qed.
Lemma blank_init : forall E s v s', blank s -> vi_init E (vi_new, s) = ORet tt (v, s') -> v = vi_new /\ blank s'.
Proof.
  intros E s v s' HB H. pose proof (blank_view_of s HB) as V. pose proof HB as [_ [HL HD]].
  unfold vi_init in H. apply bind_inv in H as [[] [[v1 s1] [H1 H]]]. unfold buf_mut, lift in H1.
  destruct (with_cur_mut (pure_op start_undo_group) s) as [[] s1'| | |] eqn:Hm; try discriminate. injection H1 as <- <-.
  destruct (ok_of _ _ _ _ _ (ok_mut (pure_op start_undo_group) _ _ _ _ V) Hm) as [b' [Hf [V1 S1]]].
  unfold pure_op in Hf. injection Hf as <-.
  change (set_editor_mode E (vi_new, s1')) with ((mod_ed (set_vi_mode VPInsert) ;;; lift (display E)) (vi_new, s1')) in H.
  unfold bind, mod_ed, lift in H. set (s2 := set_vi_mode VPInsert s1') in H.
  assert (V2 : view s2 (start_undo_group (ed_new s)) (ed_cursor s) (ed_noeol s)).
  { unfold s2, set_vi_mode. destruct (pr_vi (ed_prompt s1')); [apply view_prompt; exact V1|exact V1]. }
  assert (L2 : ed_loc s2 = None).
  { unfold s2, set_vi_mode. destruct (pr_vi (ed_prompt s1')); cbn; rewrite (proj1 S1); exact HL. }
  clearbody s2. destruct (display E s2) as [[] s3| | |] eqn:Hd; try discriminate. injection H as <- <-.
  split; [reflexivity|]. destruct (ok_of _ _ _ _ _ (ok_display E _ _ _ _ V2) Hd) as [V3 [S3 _]].
  eapply blank_view; [exact V3|rewrite (proj1 S3); exact L2|exact HD].
Qed.

(** Up in insert mode leaves the mode alone. *)
Lemma vi_up_mode : forall E x d y, v_stack (fst x) = [MInsert] -> handle_key vi_core E KUp x = ORet d y ->
  d = false /\ v_stack (fst y) = [MInsert].
Proof.
  intros E [v s] d y Hv H. cbn [fst] in Hv. destruct (walks_handle vi_core E KUp _ _ _ I H) as [-> [z [Hz ->]]]. split; [reflexivity|]. cbn [fst].
  rewrite vi_core_eq in Hz. destruct (vi_fuel v) as [|f]; [discriminate|]. cbn [vi_core_fuel] in Hz. unfold bind at 1 in Hz. cbn [getk] in Hz.
  unfold vmode_of in Hz. rewrite Hv in Hz.
  change ((modk (fun v => vset_reset true (vset_count 0 v)) ;;; buf_mut end_undo_group ;;; lift (move_up E) ;;; buf_mut start_undo_group) (v, s) = ORet tt z) in Hz.
  unfold bind, modk, buf_mut, lift in Hz.
  destruct (with_cur_mut (pure_op end_undo_group) s) as [? s1| | |]; try discriminate.
  destruct (move_up E s1) as [? s2| | |]; try discriminate.
  destruct (with_cur_mut (pure_op start_undo_group) s2) as [? s3| | |]; try discriminate. injection Hz as _ <-. exact Hv.
Qed.

(** The line that [n] Ups show. *)
Definition recalled (mem : list text) (n : nat) : text := nth (Nat.min (length mem) n) ([] :: rev mem) [].
Lemma emacs_recalls : forall E0 p f h w cb ttys s0 Es E d k s, h_share h = false ->
  editor_new E0 p f buf_new h w cb ttys = ORet tt s0 ->
  run_keys emacs_core (ups (Es ++ [E])) (emacs_new, s0) = ORet d (k, s) ->
  let t := recalled (texts h) (S (length Es)) in d = false /\ line_is s t (length t).
Proof.
  intros E0 p f h w cb ttys s0 Es E d k s Hsh Hn H t. destruct (blank_new _ _ _ _ _ _ _ _ Hn) as [B1 [B2 B3]].
  unfold ups in H. rewrite map_app, run_keys_app in H. apply bind_inv in H as [d1 [[k1 s1] [H1 H2]]].
  destruct (ups_walk emacs_nav emacs_stays emacs_edits emacs_core (length (rev (texts h))) (fun _ => True)
    (fun _ _ => eq_refl) (fun E x d y _ Hy => conj (proj1 (walks_handle emacs_core E KUp x d y I Hy)) I)
    Es (emacs_new, s0) 0 d1 (k1, s1) I ltac:(lia) H1) as [-> [_ W]].
  cbn [map run_keys] in H2. apply bind_inv in H2 as [d2 [[k2 s2] [H2 H3]]].
  assert (HO : offered (texts h) (data (ed_new s0)) (rev (texts h))) by (rewrite B3; reflexivity).
  destruct (emacs_walk_shows E0 p f buf_new h w cb ttys s0 [] false emacs_new s0 (rev (texts h)) k1 s1 _ E KUp true d2 k2 s2
    Hsh Hn ltac:(intros []) eq_refl B1 B2 HO W eq_refl H2) as [-> [Z _]].
  injection H3 as <- <- <-. split; [reflexivity|]. rewrite B3 in Z. rewrite rev_length in Z. unfold t, recalled.
  replace (Nat.min (length (texts h)) (S (length Es))) with (Nat.min (length (texts h)) (S (Nat.min (length (texts h)) (0 + length Es)))) by lia.
  exact Z.
Qed.
Lemma vi_recalls : forall E0 p f h w cb ttys s0 v s1 Es E d v' s, h_share h = false ->
  editor_new E0 p f buf_new h w cb ttys = ORet tt s0 -> vi_init E0 (vi_new, s0) = ORet tt (v, s1) ->
  run_keys vi_core (ups (Es ++ [E])) (v, s1) = ORet d (v', s) ->
  let t := recalled (texts h) (S (length Es)) in d = false /\ line_is s t (length t).
Proof.
  intros E0 p f h w cb ttys s0 v s1 Es E d v' s Hsh Hn Hi H t.
  destruct (blank_init _ _ _ _ (blank_new _ _ _ _ _ _ _ _ Hn) Hi) as [-> [B1 [B2 B3]]].
  unfold ups in H. rewrite map_app, run_keys_app in H. apply bind_inv in H as [d1 [[k1 s2] [H1 H2]]].
  destruct (ups_walk WalkSpec.vi_nav vi_stays vi_edits vi_core (length (rev (texts h))) (fun v => v_stack v = [MInsert])
    ltac:(intros v Hv; unfold WalkSpec.vi_nav; rewrite Hv; reflexivity) vi_up_mode
    Es (vi_new, s1) 0 d1 (k1, s2) eq_refl ltac:(lia) H1) as [-> [Hk1 W]]. cbn [fst] in Hk1.
  cbn [map run_keys] in H2. apply bind_inv in H2 as [d2 [[k2 s3] [H2 H3]]].
  assert (HO : offered (texts h) (data (ed_new s1)) (rev (texts h))) by (rewrite B3; reflexivity).
  assert (Hr : (vi_init E0 ;;; run_keys vi_core []) (vi_new, s0) = ORet false (vi_new, s1)) by (unfold bind; rewrite Hi; reflexivity).
  assert (Hnav : WalkSpec.vi_nav k1 KUp = Some true) by (unfold WalkSpec.vi_nav; rewrite Hk1; reflexivity).
  destruct (vi_walk_shows E0 p f buf_new h w cb ttys s0 E0 [] false vi_new s1 (rev (texts h)) k1 s2 _ E KUp true d2 k2 s3
    Hsh Hn Hr B1 B2 HO W Hnav H2) as [-> [Z _]].
  injection H3 as <- <- <-. split; [reflexivity|]. rewrite B3 in Z. rewrite rev_length in Z.
  unfold vmode_of in Z. rewrite Hk1 in Z. cbn [is_normal] in Z. unfold t, recalled.
  replace (Nat.min (length (texts h)) (S (length Es))) with (Nat.min (length (texts h)) (S (Nat.min (length (texts h)) (0 + length Es)))) by lia.
  exact Z.
Qed.

(** * The program *)
Lemma reads_uni : forall bs r, reads bs r -> Forall uni_text r.
Proof.
  intros bs r H.
  assert (A : forall t r r', add_entry t r r' -> uni_text t -> Forall uni_text r -> Forall uni_text r').
  { intros t r0 r' K Ht Hr. destruct K; [exact Hr|constructor; assumption]. }
  induction H as [|t r H1 H2 H3 HA|t rest r r' H1 H2 H3 HR IH HA|t rest r r' H1 H2 HR IH HA|p H1 H2|p rest H1 H2]; try constructor; eauto.
Qed.
Lemma collapse_sub : forall l p x, In x (collapse p l) -> In x l.
Proof.
  induction l as [|y l IH]; intros p x H; cbn [collapse] in H; [exact H|].
  match type of H with In _ (if ?b then _ else _) => destruct b end; [right; eapply IH; exact H|].
  destruct H as [->|H]; [left; reflexivity|right; eapply IH; exact H].
Qed.
Lemma start_file : forall w name r, starts_with_lines w name r ->
  exists n h w1 old, set_file_name_and_load_history w hist_new name = (Some n, h, w1) /\
    newest 1000 r old /\ texts h = old /\ private_history h /\ nothing_to_undo h /\ h_inc h = false /\ h_file h = Some name /\
    h_maxfile h = 1000 /\ h_maxbuf h = 1000 /\ h_appdup h = false /\ Forall uni_text r /\ can_write w1 name /\ (exists bs, has_content w1 name bs) /\
    (forall q, q <> name -> fs_files w1 q = fs_files w q).
Proof.
  intros w name r [[bs [C [R W]]]|[C1 [C2 ->]]]; unfold set_file_name_and_load_history.
  - set (h1 := set_fsize (set_hfile hist_new (Some name)) 0).
    assert (Ex : fs_exists w name = true). { unfold fs_exists. destruct C as [f [-> _]]. reflexivity. }
    rewrite Ex. destruct (load_history_file w h1 name false) as [n h2] eqn:El.
    destruct (load_reads w h1 name bs r false n h2 C R El (or_intror eq_refl) ltac:(discriminate)) as [-> [kept [K1 [K2 _]]]].
    specialize (K2 eq_refl). cbn [app] in K1. change (h_maxfile h1) with 1000 in K1.
    assert (S : h_inc h2 = false /\ h_file h2 = Some name /\ h_share h2 = false /\ h_maxbuf h2 = 1000 /\ h_maxfile h2 = 1000 /\ h_appdup h2 = false /\
      nothing_to_undo h2).
    { unfold load_history_file, load_history_file_test in El. destruct (fs_open w name); [|discriminate]. injection El as _ <-.
      destruct (negb _).
      - destruct (_ && _); match goal with |- context [if h_loaddup ?x then _ else _] => change (h_loaddup x) with true end; cbv iota; (do 6 (split; [reflexivity|])); unfold nothing_to_undo; cbn [buffers hist_truncate set_buffers clear_history h1 set_fsize set_hfile hist_new app h_maxfile];
          unfold keep_last; (destruct (_ <=? _);
            [eapply newest_Forall; [apply skipn_newest|]|]; apply Forall_map; apply Forall_forall; intros; split; reflexivity).
      - destruct (_ && _); (do 6 (split; [reflexivity|])); constructor. }
    destruct S as [S1 [S2 [S3 [S4 [S5 [S6 S7]]]]]].
    exists (length bs), (set_fsize h2 (length bs)), w, kept. split; [reflexivity|]. split; [exact K1|]. split; [exact K2|].
    split. { split; [exact S3|]. split; [right; exact S1|]. change (h_maxbuf (set_fsize h2 (length bs))) with (h_maxbuf h2). rewrite S4.
      split; [lia|]. change (texts (set_fsize h2 (length bs))) with (texts h2). rewrite K2. apply newest_length in K1. apply K1. }
    split; [exact S7|]. split; [exact S1|]. split; [exact S2|]. split; [exact S5|]. split; [exact S4|]. split; [exact S6|].
    split; [eapply reads_uni; exact R|]. split; [exact W|]. split; [exists bs; exact C|]. auto.
  - assert (Ex : fs_exists w name = false). { unfold fs_exists. rewrite C1. reflexivity. }
    rewrite Ex. unfold fs_create. rewrite C1, C2.
    eexists _, _, _, []. split; [reflexivity|]. split; [apply newest_all; cbn [length]; lia|]. split; [reflexivity|].
    split. { split; [reflexivity|]. split; [right; reflexivity|]. change (0 < 1000 /\ 0 <= 1000). split; lia. }
    split; [constructor|]. do 5 (split; [reflexivity|]). split; [constructor|].
    assert (P : fs_files (fs_put w name (mkFile [] true true)) name = Some (mkFile [] true true)).
    { unfold fs_put. cbn [fs_files]. rewrite text_eqb_refl. reflexivity. }
    split; [eexists; split; [exact P|reflexivity]|]. split; [exists []; eexists; split; [exact P|split; reflexivity]|].
    intros q Hq. unfold fs_put. cbn [fs_files]. destruct (text_eqb q name) eqn:Eq; [apply text_eqb_eq in Eq; contradiction|reflexivity].
Qed.
Lemma main_file : forall p f w name ttys rs w' L r, main p f w name ttys rs = Some (w', L) ->
  starts_with_lines w name r -> Forall uni_text L ->
  exists old mem, newest 1000 r old /\ remembered hist_new old L mem /\
    has_content w' name (lines_bytes mem) /\ (forall q, q <> name -> fs_files w' q = fs_files w q) /\
    exists g, set_file_name_and_load_history w' hist_new name = (Some (length (lines_bytes mem)), g, w') /\
      newest 1000 (flat_map written_entry mem) (texts g).
Proof.
  intros p f w name ttys rs w' L r H HS HU. unfold main in H.
  destruct (start_file w name r HS) as [n [h [w1 [old [E1 [K1 [K2 [K3 [_ [K4 [K5 [K6 [K7 [K8 [K9 [K10 [[bs K11] K12]]]]]]]]]]]]]]]]].
  rewrite E1 in H. pose proof (loop_from p f rs false h w1 [] ttys K3) as P. unfold standing_ok in P.
  destruct (main_loop p f rs false h w1 [] ttys []) as [h2 w2 L2| |] eqn:El; try discriminate. injection H as <- ->.
  pose proof (pushed_remembers _ _ _ _ _ K3 P) as M. destruct P as [_ [-> [_ [P1 [P2 [P3 [P4 _]]]]]]].
  unfold remembered in M. rewrite K7, K8, K2 in M.
  assert (U : Forall uni_text (texts h2)).
  { eapply newest_Forall; [exact M|]. apply Forall_app. split; [eapply newest_Forall; eassumption|].
    apply Forall_forall. intros x Hx. apply (proj1 (Forall_forall _ _) HU). eapply collapse_sub. exact Hx. }
  destruct (commit_reload w1 h2 name bs ltac:(congruence) K10 K11 U) as [h3 [w3 [C1 [kept [C2 [C3 C4]]]]]].
  rewrite P2, K6 in C2.
  assert (kept = texts h2) as ->.
  { eapply newest_unique; [exact C2|]. apply newest_all. apply newest_length in M. apply M. }
  unfold commit_to_file. rewrite P4, K5, C1. cbn [snd].
  assert (HC : has_content w3 name (lines_bytes (texts h2))) by (eapply content_set_has; eauto).
  exists old, (texts h2). split; [exact K1|]. split; [exact M|]. split; [exact HC|].
  split. { intros q Hq. rewrite (proj2 C3 q Hq). apply K12. exact Hq. }
  unfold set_file_name_and_load_history. assert (Ex : fs_exists w3 name = true). { unfold fs_exists. destruct HC as [g [-> _]]. reflexivity. }
  rewrite Ex. destruct (load_history_file w3 _ name false) as [m g] eqn:Eg.
  destruct (load_reads w3 _ name _ _ false m g HC (proj2 (reads_iff _ _) C4) Eg (or_intror eq_refl) ltac:(discriminate)) as [-> [k [G1 [G2 _]]]].
  eexists. split; [reflexivity|]. change (texts (set_fsize g (length (lines_bytes (texts h2))))) with (texts g).
  rewrite (G2 eq_refl). exact G1.
Qed.
Lemma main_file_plain : forall p f w name ttys rs w' L r, main p f w name ttys rs = Some (w', L) ->
  starts_with_lines w name r -> Forall plain_line r -> Forall plain_line L ->
  exists old mem g, newest 1000 r old /\ remembered hist_new old L mem /\
    set_file_name_and_load_history w' hist_new name = (Some (length (lines_bytes mem)), g, w') /\ texts g = mem.
Proof.
  intros p f w name ttys rs w' L r H HS HR HL.
  assert (HU : Forall uni_text L). { apply Forall_forall. intros x Hx. apply (proj1 (Forall_forall _ _) HL). exact Hx. }
  destruct (main_file _ _ _ _ _ _ _ _ _ H HS HU) as [old [mem [K1 [K2 [_ [_ [g [K3 K4]]]]]]]].
  exists old, mem, g. split; [exact K1|]. split; [exact K2|]. split; [exact K3|].
  assert (P : Forall plain_line mem).
  { eapply newest_Forall; [exact K2|]. apply Forall_app. split; [eapply newest_Forall; eassumption|].
    apply Forall_forall. intros x Hx. apply (proj1 (Forall_forall _ _) HL). eapply collapse_sub. exact Hx. }
  rewrite written_plain in K4 by exact P. eapply newest_unique; [exact K4|]. apply newest_all. apply newest_length in K2. apply K2.
Qed.

(** * Reverting *)
Lemma revert_nothing : forall h, nothing_to_undo h -> revert_all_history h = Val h.
Proof.
  intros h H. unfold revert_all_history. assert (K : revert_all (buffers h) = Val (buffers h)).
  { unfold nothing_to_undo in H. revert H. generalize (buffers h). intros l H. induction H as [|b l [H1 H2] H IH]; [reflexivity|]. cbn [revert_all].
    assert (R : buf_revert b = Val (false, b)). { unfold buf_revert, buf_revert_opt. rewrite H1. reflexivity. }
    rewrite R. cbn [rbind]. rewrite IH. reflexivity. }
  rewrite K. destruct h. reflexivity.
Qed.
Lemma loop_reverts : forall p f rs vk h w cb ttys, private_history h -> nothing_to_undo h ->
  match main_loop p f rs vk h w cb ttys [] with
  | Left h' _ _ | Waiting _ h' _ _ _ _ => revert_all_history h' = Val h'
  | Panicked => True
  end.
Proof.
  intros p f rs vk h w cb ttys H U. pose proof (loop_from p f rs vk h w cb ttys H) as K. unfold standing_ok in K.
  destruct (main_loop p f rs vk h w cb ttys []); auto; apply revert_nothing, K; exact U.
Qed.

(** * The line entered last *)
Lemma collapse_last : forall L p t, last_opt (match p with Some x => [x] | None => [] end ++ collapse p (L ++ [t])) = Some t.
Proof.
  induction L as [|x L IH]; intros p t; cbn [app].
  - cbn [collapse]. destruct p as [y|]; [|reflexivity]. destruct (list_eq_dec N.eq_dec t y) as [->|]; reflexivity.
  - cbn [collapse]. destruct p as [y|]; [destruct (list_eq_dec N.eq_dec x y) as [->|]|].
    + apply (IH (Some y) t).
    + change (last_opt ([y] ++ [x] ++ collapse (Some x) (L ++ [t])) = Some t).
      specialize (IH (Some x) t). destruct (last_opt_Some _ _ IH) as [l Hl]. rewrite Hl. rewrite app_assoc. apply last_opt_app.
    + apply (IH (Some x) t).
Qed.
Lemma remembered_last : forall h old L t mem, 0 < h_maxbuf h -> remembered h old (L ++ [t]) mem -> recalled mem 1 = t.
Proof.
  intros h old L t mem Hm H. unfold remembered in H. apply newest_last in H; [|exact Hm].
  assert (K : last_opt (old ++ (if h_appdup h then L ++ [t] else collapse (last_opt old) (L ++ [t]))) = Some t).
  { destruct (h_appdup h); [rewrite app_assoc; apply last_opt_app|].
    pose proof (collapse_last L (last_opt old) t) as K. destruct (last_opt old) as [y|] eqn:Ey.
    - apply last_opt_Some in Ey as [o ->]. apply last_opt_Some in K as [l K]. rewrite <- app_assoc. cbn [app] in *. rewrite K, app_assoc. apply last_opt_app.
    - apply last_opt_Some in K as [l K]. cbn [app] in K. rewrite K, app_assoc. apply last_opt_app. }
  rewrite K in H. apply last_opt_Some in H as [l ->]. unfold recalled. rewrite rev_app_distr, app_length. cbn [length rev app].
  replace (Nat.min (length l + 1) 1) with 1 by lia. reflexivity.
Qed.
Lemma emacs_last : forall p f rs vk h w cb ttys vk' h' w' cb' ttys' L t E0 s0 E d k s, private_history h ->
  main_loop p f rs vk h w cb ttys [] = Waiting vk' h' w' cb' ttys' (L ++ [t]) ->
  editor_new E0 p f buf_new h' w' cb' ttys' = ORet tt s0 -> handle_key emacs_core E KUp (emacs_new, s0) = ORet d (k, s) ->
  d = false /\ line_is s t (length t).
Proof.
  intros p f rs vk h w cb ttys vk' h' w' cb' ttys' L t E0 s0 E d k s Hp Hl Hn H.
  destruct (private_of _ _ _ _ _ _ _ _ _ _ _ _ _ _ Hp Hl) as [P R]. pose proof (remembered_last _ _ _ _ _ (proj1 (proj2 (proj2 Hp))) R) as K.
  assert (H' : run_keys emacs_core (ups ([] ++ [E])) (emacs_new, s0) = ORet d (k, s)).
  { cbn [app ups map run_keys]. unfold bind. rewrite H. destruct (walks_handle emacs_core E KUp _ _ _ I H) as [-> _]. reflexivity. }
  destruct (emacs_recalls E0 p f h' w' cb' ttys' s0 [] E d k s (proj1 P) Hn H') as [Z1 Z2]. cbn [length] in Z2. rewrite K in Z2. split; assumption.
Qed.
Lemma vi_last : forall p f rs vk h w cb ttys vk' h' w' cb' ttys' L t E0 s0 v s1 E d v' s, private_history h ->
  main_loop p f rs vk h w cb ttys [] = Waiting vk' h' w' cb' ttys' (L ++ [t]) ->
  editor_new E0 p f buf_new h' w' cb' ttys' = ORet tt s0 -> vi_init E0 (vi_new, s0) = ORet tt (v, s1) ->
  handle_key vi_core E KUp (v, s1) = ORet d (v', s) -> d = false /\ line_is s t (length t).
Proof.
  intros p f rs vk h w cb ttys vk' h' w' cb' ttys' L t E0 s0 v s1 E d v' s Hp Hl Hn Hi H.
  destruct (private_of _ _ _ _ _ _ _ _ _ _ _ _ _ _ Hp Hl) as [P R]. pose proof (remembered_last _ _ _ _ _ (proj1 (proj2 (proj2 Hp))) R) as K.
  assert (H' : run_keys vi_core (ups ([] ++ [E])) (v, s1) = ORet d (v', s)).
  { cbn [app ups map run_keys]. unfold bind. rewrite H. destruct (walks_handle vi_core E KUp _ _ _ I H) as [-> _]. reflexivity. }
  destruct (vi_recalls E0 p f h' w' cb' ttys' s0 v s1 [] E d v' s (proj1 P) Hn Hi H') as [Z1 Z2]. cbn [length] in Z2. rewrite K in Z2. split; assumption.
Qed.
Lemma loop_up_emacs : forall p f rs vk h w cb ttys vk' h' w' cb' ttys' L E0 s0 Es E d k s, private_history h ->
  main_loop p f rs vk h w cb ttys [] = Waiting vk' h' w' cb' ttys' L ->
  editor_new E0 p f buf_new h' w' cb' ttys' = ORet tt s0 -> run_keys emacs_core (map (fun E => (E, KUp)) (Es ++ [E])) (emacs_new, s0) = ORet d (k, s) ->
  exists mem, remembered h (texts h) L mem /\ d = false /\
    let t := nth (Nat.min (length mem) (S (length Es))) ([] :: rev mem) [] in line_is s t (length t).
Proof.
  intros p f rs vk h w cb ttys vk' h' w' cb' ttys' L E0 s0 Es E d k s Hp Hl Hn H.
  destruct (private_of _ _ _ _ _ _ _ _ _ _ _ _ _ _ Hp Hl) as [P R]. exists (texts h'). split; [exact R|].
  exact (emacs_recalls E0 p f h' w' cb' ttys' s0 Es E d k s (proj1 P) Hn H).
Qed.
Lemma loop_up_vi : forall p f rs vk h w cb ttys vk' h' w' cb' ttys' L E0 s0 v s1 Es E d v' s, private_history h ->
  main_loop p f rs vk h w cb ttys [] = Waiting vk' h' w' cb' ttys' L ->
  editor_new E0 p f buf_new h' w' cb' ttys' = ORet tt s0 -> vi_init E0 (vi_new, s0) = ORet tt (v, s1) ->
  run_keys vi_core (map (fun E => (E, KUp)) (Es ++ [E])) (v, s1) = ORet d (v', s) ->
  exists mem, remembered h (texts h) L mem /\ d = false /\
    let t := nth (Nat.min (length mem) (S (length Es))) ([] :: rev mem) [] in line_is s t (length t).
Proof.
  intros p f rs vk h w cb ttys vk' h' w' cb' ttys' L E0 s0 v s1 Es E d v' s Hp Hl Hn Hi H.
  destruct (private_of _ _ _ _ _ _ _ _ _ _ _ _ _ _ Hp Hl) as [P R]. exists (texts h'). split; [exact R|].
  exact (vi_recalls E0 p f h' w' cb' ttys' s0 v s1 Es E d v' s (proj1 P) Hn Hi H).
Qed.
