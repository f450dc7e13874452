(** The Emacs keys agree with the pure editor of EmacsSpec.v. *)
From Verif Require Import Base Utf8 BufferModel UtilModel HistoryModel EditorState EditorModel
  KeymapModel MonadLemmas EditorLemmas CursorProofs Lemmas BufferSpec BufferProofs HistorySpec HistoryProofs
  UtilSpec UtilProofs EditorSpec EditorProofs SuggestProofs EditorOps EmacsSpec.
Local Open Scope monad_scope.

(** * Running key map methods *)

Lemma ok_lift : forall {K A} (m : ME A) (x : K) s (Q : A -> K * ed -> Prop),
  ok m s (fun a s' => Q a (x, s')) -> ok (lift m) (x, s) Q.
Proof. intros K A m x s Q H. unfold ok, lift in *. destruct (m s); auto. Qed.
Lemma ok_lift_seq : forall {K A B} (m : ME A) (k : A -> MK K B) (x : K) s (P : A -> ed -> Prop) (Q : B -> K * ed -> Prop),
  ok m s P -> (forall a s', P a s' -> ok (k a) (x, s') Q) -> ok (bind (lift m) k) (x, s) Q.
Proof. intros K A B m k x s P Q H H'. apply ok_bind, ok_lift. eapply ok_mono; eauto. Qed.
Lemma ok_gete : forall {K B} (k : ed -> MK K B) x s (Q : B -> K * ed -> Prop),
  ok (k s) (x, s) Q -> ok (bind gete k) (x, s) Q.
Proof. intros K B k x s Q H. exact H. Qed.
Lemma ok_getk : forall {K B} (k : K -> MK K B) x s (Q : B -> K * ed -> Prop),
  ok (k x) (x, s) Q -> ok (bind getk k) (x, s) Q.
Proof. intros K B k x s Q H. exact H. Qed.
Lemma ok_modk : forall {K} (f : K -> K) x s (Q : unit -> K * ed -> Prop), Q tt (f x, s) -> ok (modk f) (x, s) Q.
Proof. intros K f x s Q H. exact H. Qed.
Lemma ok_mod_ed : forall {K} (f : ed -> ed) (x : K) s (Q : unit -> K * ed -> Prop),
  Q tt (x, f s) -> ok (mod_ed f) (x, s) Q.
Proof. intros K f x s Q H. exact H. Qed.

(** * The relation *)

(** Undoing the actions of a line one by one gives these texts. *)
Inductive undoes : list action -> text -> list text -> Prop :=
| undoes_nil : forall d, undoes [] d []
| undoes_cons : forall a acts d d' ts, a <> AStart -> a <> AEnd -> astep a d d' ->
    undoes acts d ts -> undoes (a :: acts) d' (d :: ts).

(** [at_] tells which entry of the history is shown, if any. *)
Definition zsame (hs : list text) (at_ : option nat) (z : zipper) (s : ed) : Prop :=
  (exists b, view s b (length (before z)) false /\ data b = zline z /\ undoes (actions b) (data b) (earlier z)) /\
  ed_loc s = at_ /\ (at_ = None -> ed_hvalid s = false) /\ ed_showauto s = true /\ texts (ed_history s) = hs.
Definition zstate (hs : list text) (at_ : option nat) (z : zipper) (s : ed) : Prop := zsame hs at_ z s /\ resugg s.

Lemma undo_undoes : forall b t ts, undoes (actions b) (data b) (t :: ts) ->
  exists b', buf_undo b = Val (true, b') /\ data b' = t /\ undoes (actions b') (data b') ts.
Proof.
  intros [d acts und] t ts H. cbn [actions data] in H. inversion H; subst.
  unfold buf_undo. cbn [actions undone data undo_loop]. rewrite (astep_undo _ _ _ H6). cbn [rbind].
  destruct a; try congruence; cbn; eexists; (split; [reflexivity|]); split; auto.
Qed.
Lemma undoes_nil_acts : forall acts d, undoes acts d [] -> acts = [].
Proof. intros acts d H. inversion H. reflexivity. Qed.

Lemma clamp_le : forall n c, c <= n -> clamp_cursor false n c = c.
Proof.
  intros n c H. unfold clamp_cursor. destruct (n <? c) eqn:E; [apply Nat.ltb_lt in E; lia|].
  reflexivity.
Qed.

Section Keys.
  Context (hs : list text) (at_ : option nat).

  Lemma z_lands : forall z s b z' c s', zsame hs at_ z s -> lands s b c false s' ->
    c = length (before z') -> data b = zline z' -> undoes (actions b) (data b) (earlier z') -> zstate hs at_ z' s'.
  Proof.
    intros z s b z' c s' [_ [Z1 [Z2 [Z3 Z4]]]] [V [S R]] -> Hd Hu. split; [|exact R].
    split; [exists b; auto|]. destruct S as [S1 [S2 [S3 [_ [_ [_ [_ [_ [_ S]]]]]]]]].
    split; [congruence|]. split; [|split; congruence]. intro Hn. destruct (S (eq_trans Z1 Hn)) as [_ S4]. rewrite S4. exact (Z2 Hn).
  Qed.
  Lemma z_cut : forall z s b a m r z' c s', zsame hs at_ z s ->
    data b = zline z -> undoes (actions b) (data b) (earlier z) ->
    data b = a ++ m ++ r -> lands s (cut b a m r) c false s' ->
    z' = change a r z -> c = length a -> zstate hs at_ z' s'.
  Proof.
    intros z s b a m r z' c s' Z Hd Hu Ha L -> ->. eapply z_lands; [exact Z|exact L|reflexivity|reflexivity|].
    unfold cut. cbn [actions data earlier change]. rewrite <- Hd.
    apply undoes_cons; try discriminate; [|assumption]. rewrite Ha. apply astep_remove.
  Qed.

  Lemma z_split : forall z (d a r : text), d = zline z -> d = a ++ r -> length a = length (before z) ->
    a = before z /\ r = after z.
  Proof.
    intros z d a r -> H Hl. unfold zline in H. split.
    - apply (f_equal (firstn (length a))) in H. rewrite !firstn_app_eq in H by lia. auto.
    - apply (f_equal (skipn (length a))) in H. rewrite !skipn_app_eq in H by lia. auto.
  Qed.

  Lemma z_goto : forall z s b n c s', zsame hs at_ z s -> lands s b c false s' ->
    data b = zline z -> undoes (actions b) (data b) (earlier z) -> c = Nat.min n (length (data b)) ->
    zstate hs at_ (put_cursor n z) s'.
  Proof.
    intros z s b n c s' Z L Hd Hu ->. eapply z_lands; [exact Z|exact L| | |exact Hu].
    - unfold put_cursor. cbn [before]. rewrite firstn_length, Hd. reflexivity.
    - unfold put_cursor, zline. cbn [before after]. rewrite firstn_skipn. exact Hd.
  Qed.
  Lemma put_here : forall z, put_cursor (length (before z)) z = z.
  Proof.
    intros [b a p]. unfold put_cursor, zline. cbn [before after earlier].
    rewrite firstn_app_eq, skipn_app_eq by reflexivity. reflexivity.
  Qed.

  (** * Keys *)

  Ltac zget := intros E z s Z; destruct Z as [Z R]; pose proof Z as [[b [V [Hd Hu]]] _].

  Lemma zk_type : forall E c z s, zstate hs at_ z s ->
    ok (insert_after_cursor E c) s (fun _ s' => zstate hs at_ (z_type c z) s').
  Proof.
    intros E c z s Z. destruct Z as [Z R]; pose proof Z as [[b [V [Hd Hu]]] _].
    unfold insert_after_cursor.
    eapply ok_mono; [apply (ok_insert E [c] s b _ _ (before z) (after z) V); [exact Hd|reflexivity]|].
    cbv beta. intros _ s' L. eapply z_lands; [exact Z|exact L| | |].
    - rewrite clamp_le; [reflexivity|]. rewrite !app_length. lia.
    - unfold put, z_type, change, zline. cbn [before after data]. rewrite <- app_assoc. reflexivity.
    - unfold put, z_type, change. cbn [actions data earlier]. rewrite <- Hd.
      apply undoes_cons; try discriminate; [|assumption]. rewrite Hd. unfold zline. apply astep_insert.
  Qed.

  Lemma zk_left : forall E z s, zstate hs at_ z s ->
    ok (move_cursor_left E 1) s (fun _ s' => zstate hs at_ (z_left z) s').
  Proof.
    zget. eapply ok_mono; [apply (ok_move_left E 1 _ _ _ _ V)|]. cbv beta. intros _ s' L.
    assert (length (before z) <= length (data b)) by (rewrite Hd; unfold zline; rewrite app_length; lia).
    rewrite clamp_le in L by lia. eapply z_goto; [exact Z|exact L|exact Hd|exact Hu|]. lia.
  Qed.
  Lemma zk_right : forall E z s, zstate hs at_ z s ->
    ok (move_cursor_right E 1) s (fun _ s' => zstate hs at_ (z_right z) s').
  Proof.
    zget. eapply ok_mono; [apply (ok_move_right E 1 _ _ _ _ V)|]. cbv beta. intros _ s' L.
    rewrite clamp_le in L by lia. eapply z_goto; [exact Z|exact L|exact Hd|exact Hu|]. reflexivity.
  Qed.
  Lemma zk_home : forall E z s, zstate hs at_ z s ->
    ok (move_cursor_to_start_of_line E) s (fun _ s' => zstate hs at_ (z_home z) s').
  Proof.
    zget. eapply ok_mono; [apply (ok_move_start E _ _ _ _ V)|]. cbv beta. intros _ s' L.
    eapply z_goto; [exact Z|exact L|exact Hd|exact Hu|]. reflexivity.
  Qed.
  Lemma zk_end : forall E z s, zstate hs at_ z s ->
    ok (move_cursor_to_end_of_line E) s (fun _ s' => zstate hs at_ (z_end z) s').
  Proof.
    zget. eapply ok_mono; [apply (ok_move_end E _ _ _ _ V)|]. cbv beta. intros _ s' L.
    rewrite clamp_le in L by lia. eapply z_goto; [exact Z|exact L|exact Hd|exact Hu|]. rewrite Hd. lia.
  Qed.

  Lemma removelast_snoc : forall (l : text) x, removelast (l ++ [x]) = l.
  Proof. intros l x. apply removelast_last. Qed.

  Lemma zk_backspace : forall E z s, zstate hs at_ z s ->
    ok (delete_before_cursor E) s (fun _ s' => zstate hs at_ (z_backspace z) s').
  Proof.
    zget. eapply ok_mono; [apply (ok_delete_before E _ _ _ _ V)|]. cbv beta.
    intros _ s' [[Hc L]|[a [x [r [Ha [Hl [Hp L]]]]]]].
    - unfold z_backspace. destruct (before z) eqn:Eb; [|discriminate].
      eapply z_lands; [exact Z|exact L|rewrite Eb; reflexivity|exact Hd|exact Hu].
    - rewrite clamp_le in L by (rewrite app_length; lia).
      assert (Hs : a ++ [x] = before z /\ r = after z).
      { apply (z_split z (data b) _ _ Hd); [rewrite <- app_assoc; exact Ha|]. rewrite app_length. cbn [length]. lia. }
      destruct Hs as [H1 H2]. eapply z_cut; [exact Z|exact Hd|exact Hu|exact Ha|exact L| |reflexivity].
      unfold z_backspace. rewrite <- H1, removelast_snoc, H2. destruct (a ++ [x]) eqn:Ee; [destruct a; discriminate|].
      reflexivity.
  Qed.
  Lemma zk_delete : forall E z s, zstate hs at_ z s ->
    ok (delete_after_cursor E) s (fun _ s' => zstate hs at_ (z_delete z) s').
  Proof.
    zget. eapply ok_mono; [apply (ok_delete_after E _ _ _ _ V)|]. cbv beta.
    intros _ s' [[Hc L]|[a [x [r [Ha [Hl L]]]]]].
    - unfold z_delete. rewrite Hd in Hc. unfold zline in Hc. rewrite app_length in Hc.
      destruct (after z) eqn:Eb; [|cbn [length] in Hc; lia].
      eapply z_lands; [exact Z|exact L| |exact Hd|exact Hu].
      apply clamp_le. rewrite Hd. unfold zline. rewrite app_length. lia.
    - rewrite clamp_le in L by (rewrite app_length; lia).
      destruct (z_split z (data b) _ _ Hd Ha Hl) as [H1 H2].
      eapply z_cut; [exact Z|exact Hd|exact Hu|exact Ha|exact L| |lia].
      unfold z_delete. rewrite <- H2, <- H1. reflexivity.
  Qed.
  Lemma zk_kill_before : forall E z s, zstate hs at_ z s ->
    ok (delete_all_before_cursor E) s (fun _ s' => zstate hs at_ (z_kill_before z) s').
  Proof.
    zget. eapply ok_mono; [apply (ok_delete_all_before E _ _ _ _ V)|]. cbv beta.
    intros _ s' [m [r [Ha [Hl L]]]]. destruct (z_split z (data b) _ _ Hd Ha Hl) as [H1 H2].
    eapply (z_cut z s b [] m r); [exact Z|exact Hd|exact Hu|exact Ha|exact L| |reflexivity].
    unfold z_kill_before. rewrite H2. reflexivity.
  Qed.
  Lemma zk_kill_after : forall E z s, zstate hs at_ z s ->
    ok (delete_all_after_cursor E) s (fun _ s' => zstate hs at_ (z_kill_after z) s').
  Proof.
    zget. eapply ok_mono; [apply (ok_delete_all_after E _ _ _ _ V)|]. cbv beta.
    intros _ s' [a [m [Ha [Hl L]]]]. destruct (z_split z (data b) _ _ Hd Ha Hl) as [H1 H2].
    rewrite clamp_le in L by lia.
    eapply (z_cut z s b a m []); [exact Z|exact Hd|exact Hu|rewrite app_nil_r; exact Ha|exact L| |lia].
    unfold z_kill_after. rewrite H1. reflexivity.
  Qed.

  Lemma zk_undo : forall E z s, zstate hs at_ z s ->
    ok (ed_undo E) s (fun _ s' => zstate hs at_ (z_undo z) s').
  Proof.
    zget. eapply ok_mono; [apply (ok_undo_like E buf_undo _ _ _ _ V)|]. cbv beta.
    intros did s' [b' [Hf L]]. unfold z_undo. destruct (earlier z) as [|t ts] eqn:Ee.
    - apply undoes_nil_acts in Hu. rewrite (undo_noacts b Hu) in Hf. injection Hf as <- <-.
      eapply z_lands; [exact Z|exact L| |exact Hd|rewrite Hu, Ee; constructor].
      apply clamp_le. rewrite Hd. unfold zline. rewrite app_length. lia.
    - destruct (undo_undoes b t ts Hu) as [b2 [U1 [U2 U3]]]. rewrite U1 in Hf. injection Hf as <- <-.
      rewrite clamp_le in L by lia.
      eapply z_lands; [exact Z|exact L| | |exact U3]; cbn [before]; [congruence|].
      unfold zline. cbn [before after]. rewrite app_nil_r. exact U2.
  Qed.
  Lemma zk_revert : forall E z s, zstate hs at_ z s ->
    ok (ed_revert E) s (fun _ s' => zstate hs at_ (z_revert z) s').
  Proof.
    zget. eapply ok_mono; [apply (ok_undo_like E buf_revert _ _ _ _ V)|]. cbv beta.
    intros did s' [b' [Hf L]]. unfold z_revert. destruct (earlier z) as [|t ts] eqn:Ee.
    - apply undoes_nil_acts in Hu. unfold buf_revert, buf_revert_opt in Hf. rewrite Hu in Hf. injection Hf as <- <-.
      eapply z_lands; [exact Z|exact L| |exact Hd|rewrite Hu, Ee; constructor].
      apply clamp_le. rewrite Hd. unfold zline. rewrite app_length. lia.
    - destruct b as [d acts und]. cbn [data actions] in *.
      assert (HR : exists b1, buf_revert (mkBuf d acts und) = Val (true, b1) /\ data b1 = last (t :: ts) d /\ actions b1 = []).
      { unfold buf_revert, buf_revert_opt. cbn [actions].
        destruct acts as [|a acts]; [inversion Hu|].
        assert (G : forall n b0 x, undoes (actions b0) (data b0) x -> length (actions b0) < n ->
          exists b1, revert_loop n b0 = Some (Val b1) /\ data b1 = last x (data b0) /\ actions b1 = []).
        { clear. induction n as [|n IH]; intros b0 x Hx Hn; [lia|]. cbn [revert_loop]. destruct x as [|y x].
          - apply undoes_nil_acts in Hx. rewrite (undo_noacts b0 Hx). exists b0. auto.
          - destruct (undo_undoes b0 y x Hx) as [b2 [U1 [U2 U3]]]. rewrite U1.
            destruct (IH b2 x U3) as [b1 [K1 [K2 K3]]].
            + assert (LL : forall ac d l, undoes ac d l -> length ac = length l) by (induction 1; cbn; congruence).
              rewrite (LL _ _ _ U3). rewrite (LL _ _ _ Hx) in Hn. cbn [length] in Hn. lia.
            + exists b1. split; [exact K1|]. split; [|exact K3]. rewrite K2, U2.
              destruct x as [|w x]; [reflexivity|]. cbn [last]. clear. revert w.
              induction x as [|v x IH]; intro w; [reflexivity|]. exact (IH v). }
        destruct (G (S (length (a :: acts))) (mkBuf d (a :: acts) und) (t :: ts) Hu) as [b1 [K1 [K2 K3]]];
          [cbn; lia|]. rewrite K1. exists b1. auto. }
      destruct HR as [b1 [R1 [R2 R3]]]. rewrite R1 in Hf. injection Hf as <- <-.
      rewrite clamp_le in L by lia.
      assert (Hlast : last (t :: ts) d = last (t :: ts) []).
      { clear. revert t. induction ts as [|y ts IH]; intro t; [reflexivity|]. exact (IH y). }
      eapply z_lands; [exact Z|exact L| | |rewrite R3; constructor]; cbn [before]; [congruence|].
      unfold zline. cbn [before after]. rewrite app_nil_r. congruence.
  Qed.

  Lemma zk_clear : forall E z s, zstate hs at_ z s -> ok (clear E) s (fun _ s' => zstate hs at_ z s').
  Proof.
    zget. unfold ok. rewrite clear_eq. set (s1 := clear_search _).
    assert (Z1 : zsame hs at_ z s1).
    { destruct Z as [_ [Z1 [Z2 [Z3 Z4]]]]. split; [|repeat split; assumption].
      exists b. split; [|auto]. destruct V as [V1 [V2 [V3 V4]]]. split; [reflexivity|]. split; [exact V2|]. auto. }
    pose proof Z1 as [[b1 [V1 [Hd1 Hu1]]] _].
    pose proof (ok_display E s1 b1 _ _ V1) as D. unfold ok in D. destruct (display E s1); auto.
    eapply z_lands; [exact Z1|exact D| |exact Hd1|exact Hu1].
    apply clamp_le. rewrite Hd1. unfold zline. rewrite app_length. lia.
  Qed.

  (** ** Words *)

  Context (words : text -> list (nat * nat)) (Hinc : forall t, increasing (words t)).

  Lemma filter_left : forall ws c i s e, increasing ws -> nth_error ws i = Some (s, e) -> s < c ->
    (forall j s' e', i < j -> nth_error ws j = Some (s', e') -> c <= s') ->
    exists l, rev (filter (fun w : nat * nat => fst w <? c) ws) = (s, e) :: l.
  Proof.
    intros ws c i s e HI Hi Hs Hj. destruct (nth_error_split _ _ Hi) as [l1 [l2 [-> Hl]]].
    rewrite filter_app. cbn [filter fst]. replace (s <? c) with true by (symmetry; apply Nat.ltb_lt; lia).
    replace (filter (fun w : nat * nat => fst w <? c) l2) with (@nil (nat * nat)).
    - rewrite rev_app_distr. cbn [rev app]. eauto.
    - symmetry. assert (F : forall x, In x l2 -> (fst x <? c) = false).
      { intros [s' e'] Hx. apply In_nth_error in Hx as [k Hk]. apply Nat.ltb_ge. cbn [fst].
        apply (Hj (S i + k) s' e'); [lia|]. rewrite nth_error_app2 by lia.
        replace (S i + k - length l1) with (S k) by lia. exact Hk. }
      clear - F. induction l2 as [|x l2 IH]; [reflexivity|]. cbn [filter]. rewrite (F x (or_introl eq_refl)).
      apply IH. intros y Hy. apply F. right. exact Hy.
  Qed.
  Lemma filter_none : forall ws c, (forall i s e, nth_error ws i = Some (s, e) -> c <= s) ->
    filter (fun w : nat * nat => fst w <? c) ws = [].
  Proof.
    intros ws c H. induction ws as [|[s e] ws IH]; [reflexivity|]. cbn [filter fst].
    replace (s <? c) with false by (symmetry; apply Nat.ltb_ge; apply (H 0 s e); reflexivity).
    apply IH. intros i s' e' Hi. exact (H (S i) s' e' Hi).
  Qed.
  Lemma filter_right : forall ws c i s e, nth_error ws i = Some (s, e) -> c < e ->
    (forall j s' e', j < i -> nth_error ws j = Some (s', e') -> e' <= c) ->
    exists l, filter (fun w : nat * nat => c <? snd w) ws = (s, e) :: l.
  Proof.
    intros ws c. induction ws as [|[s0 e0] ws IH]; intros [|i] s e Hi Hs Hj; try discriminate.
    - cbn in Hi. injection Hi as -> ->. cbn [filter snd]. replace (c <? e) with true by (symmetry; apply Nat.ltb_lt; lia).
      eauto.
    - cbn [nth_error] in Hi. cbn [filter snd].
      replace (c <? e0) with false by (symmetry; apply Nat.ltb_ge; apply (Hj 0 s0 e0); [lia|reflexivity]).
      apply (IH i s e Hi Hs). intros j s' e' H1 H2. apply (Hj (S j) s' e'); [lia|exact H2].
  Qed.
  Lemma filter_right_none : forall ws c, (forall i s e, nth_error ws i = Some (s, e) -> e <= c) ->
    filter (fun w : nat * nat => c <? snd w) ws = [].
  Proof.
    intros ws c H. induction ws as [|[s e] ws IH]; [reflexivity|]. cbn [filter snd].
    replace (c <? e) with false by (symmetry; apply Nat.ltb_ge; apply (H 0 s e); reflexivity).
    apply IH. intros i s' e' Hi. exact (H (S i) s' e' Hi).
  Qed.

  (** What the cursor position tells about the neighbouring words. *)
  Definition left_is (ws : list (nat * nat)) (c : nat) (o : option (nat * nat)) : Prop :=
    match o with
    | Some w => exists l, rev (filter (fun w : nat * nat => fst w <? c) ws) = w :: l
    | None => filter (fun w : nat * nat => fst w <? c) ws = []
    end.
  Definition right_is (ws : list (nat * nat)) (c : nat) (o : option (nat * nat)) : Prop :=
    match o with
    | Some w => exists l, filter (fun w : nat * nat => c <? snd w) ws = w :: l
    | None => filter (fun w : nat * nat => c <? snd w) ws = []
    end.

  Lemma pos_left : forall ws c p, increasing ws -> cpos_get c ws = Val p ->
    match p with
    | InWord i | OnWordRightEdge i => exists w, nth_error ws i = Some w /\ left_is ws c (Some w)
    | OnWordLeftEdge 0 => left_is ws c None /\ exists e, nth_error ws 0 = Some (c, e)
    | OnWordLeftEdge (S i) => exists w, nth_error ws i = Some w /\ left_is ws c (Some w)
    | InSpace (Some i) _ => exists w, nth_error ws i = Some w /\ left_is ws c (Some w)
    | InSpace None _ => left_is ws c None
    end.
  Proof.
    intros ws c p HI H. apply cpos_get_iff in H; [|exact HI].
    assert (lt_ : forall i j s e s' e', nth_error ws i = Some (s, e) -> nth_error ws j = Some (s', e') -> i < j -> e <= s').
    { intros i j s e s' e' H1 H2 H3. pose proof (inc_lt ws HI i j s e s' e' H3 H1 H2). lia. }
    assert (pos : forall i s e, nth_error ws i = Some (s, e) -> s < e) by apply (inc_pos ws HI).
    destruct p as [i|[|i]|i|[i|] r]; cbn [class_is class_of] in H.
    - destruct H as [s [e [H1 H2]]]. exists (s, e). split; [exact H1|]. apply (filter_left ws c i s e HI H1); [lia|].
      intros j s' e' Hj H3. pose proof (lt_ _ _ _ _ _ _ H1 H3 Hj). lia.
    - destruct H as [[e H1] H2]. split; [|eauto]. apply filter_none. intros [|i] s' e' Hi.
      + rewrite H1 in Hi. injection Hi as <- _. lia.
      + pose proof (lt_ _ _ _ _ _ _ H1 Hi ltac:(lia)). pose proof (pos _ _ _ H1). lia.
    - destruct H as [[e H1] H2].
      assert (Hi : exists s' e', nth_error ws i = Some (s', e')).
      { destruct (nth_error ws i) as [[x y]|] eqn:En; [eauto|]. apply nth_error_None in En.
        assert (nth_error ws (S i) <> None) by congruence. apply nth_error_Some in H. lia. }
      destruct Hi as [s' [e' Hi]]. exists (s', e'). split; [exact Hi|].
      pose proof (lt_ _ _ _ _ _ _ Hi H1 ltac:(lia)) as K1. pose proof (pos _ _ _ Hi) as K2.
      apply (filter_left ws c i s' e' HI Hi); [lia|]. intros j s2 e2 Hj H3.
      destruct (Nat.eq_dec j (S i)) as [->|Hne]; [rewrite H1 in H3; injection H3 as <- _; lia|].
      pose proof (lt_ _ _ _ _ _ _ H1 H3 ltac:(lia)). pose proof (pos _ _ _ H1). lia.
    - destruct H as [s H1]. exists (s, c). split; [exact H1|]. pose proof (pos _ _ _ H1).
      apply (filter_left ws c i s c HI H1); [lia|].
      intros j s' e' Hj H3. exact (lt_ _ _ _ _ _ _ H1 H3 Hj).
    - destruct H as [[[s [e [H1 H2]]] H3] [_ H4]]. exists (s, e). split; [exact H1|]. pose proof (pos _ _ _ H1).
      apply (filter_left ws c i s e HI H1); [lia|]. intros j s' e' Hj H5. pose proof (H3 j s' e' Hj H5).
      destruct (le_dec c s') as [|Hn]; [assumption|]. exfalso. destruct (H4 j) as [_ [_ K]]. apply K.
      exists s', e'. split; [exact H5|lia].
    - destruct H as [H3 [_ H4]]. apply filter_none. intros j s' e' H5. pose proof (H3 j s' e' H5).
      destruct (le_dec c s') as [|Hn]; [assumption|]. exfalso. destruct (H4 j) as [_ [_ K]]. apply K.
      exists s', e'. split; [exact H5|lia].
  Qed.

  Lemma pos_right : forall ws c p, increasing ws -> cpos_get c ws = Val p ->
    match p with
    | InWord i | OnWordLeftEdge i => exists w, nth_error ws i = Some w /\ right_is ws c (Some w)
    | OnWordRightEdge i => exists s, nth_error ws i = Some (s, c) /\
        match nth_error ws (S i) with Some w => right_is ws c (Some w) | None => right_is ws c None end
    | InSpace _ (Some i) => exists w, nth_error ws i = Some w /\ right_is ws c (Some w)
    | InSpace _ None => right_is ws c None
    end.
  Proof.
    intros ws c p HI H. apply cpos_get_iff in H; [|exact HI].
    assert (lt_ : forall i j s e s' e', nth_error ws i = Some (s, e) -> nth_error ws j = Some (s', e') -> i < j -> e <= s').
    { intros i j s e s' e' H1 H2 H3. pose proof (inc_lt ws HI i j s e s' e' H3 H1 H2). lia. }
    assert (pos : forall i s e, nth_error ws i = Some (s, e) -> s < e) by apply (inc_pos ws HI).
    destruct p as [i|i|i|l [i|]]; cbn [class_is class_of] in H.
    - destruct H as [s [e [H1 H2]]]. exists (s, e). split; [exact H1|]. apply (filter_right ws c i s e H1); [lia|].
      intros j s' e' Hj H3. pose proof (lt_ _ _ _ _ _ _ H3 H1 Hj). lia.
    - destruct H as [[e H1] H2]. exists (c, e). split; [exact H1|]. apply (filter_right ws c i c e H1); [apply (pos _ _ _ H1)|].
      intros j s' e' Hj H3. pose proof (lt_ _ _ _ _ _ _ H3 H1 Hj). lia.
    - destruct H as [s H1]. exists s. split; [exact H1|]. destruct (nth_error ws (S i)) as [[s2 e2]|] eqn:E2.
      + pose proof (lt_ _ _ _ _ _ _ H1 E2 ltac:(lia)). pose proof (pos _ _ _ E2).
        apply (filter_right ws c (S i) s2 e2 E2); [lia|]. intros j s' e' Hj H3.
        destruct (Nat.eq_dec j i) as [->|Hne]; [rewrite H1 in H3; injection H3 as _ <-; lia|].
        pose proof (lt_ _ _ _ _ _ _ H3 H1 ltac:(lia)). pose proof (pos _ _ _ H1). lia.
      + apply filter_right_none. intros j s' e' H3.
        destruct (lt_eq_lt_dec j i) as [[Hj| ->]|Hj].
        * pose proof (lt_ _ _ _ _ _ _ H3 H1 Hj). pose proof (pos _ _ _ H1). lia.
        * rewrite H1 in H3. injection H3 as _ <-. lia.
        * exfalso. apply nth_error_None in E2. assert (nth_error ws j <> None) by congruence.
          apply nth_error_Some in H. lia.
    - destruct H as [_ [[[s [e [H1 H2]]] H3] H4]]. exists (s, e). split; [exact H1|]. pose proof (pos _ _ _ H1).
      apply (filter_right ws c i s e H1); [lia|]. intros j s' e' Hj H5. pose proof (H3 j s' e' Hj H5).
      destruct (le_dec e' c) as [|Hn]; [assumption|]. exfalso. destruct (H4 j) as [_ [_ K]]. apply K.
      exists s', e'. split; [exact H5|lia].
    - destruct H as [_ [H3 H4]]. apply filter_right_none. intros j s' e' H5. pose proof (H3 j s' e' H5).
      destruct (le_dec e' c) as [|Hn]; [assumption|]. exfalso. destruct (H4 j) as [_ [_ K]]. apply K.
      exists s', e'. split; [exact H5|lia].
  Qed.

  Lemma z_words : forall E z s ws p, e_words E = words -> zsame hs at_ z s ->
    get_words_and_cursor_position E s = Val (ws, p) ->
    ws = words (zline z) /\ cpos_get (length (before z)) ws = Val p.
  Proof.
    intros E z s ws p HE [[b [V [Hd _]]] _] H. destruct (view_line _ _ _ _ V) as [b0 [B1 B2]].
    destruct V as [_ [_ [V3 _]]].
    unfold get_words_and_cursor_position in H. rewrite B1 in H. cbn [rbind] in H. rewrite HE, B2, Hd, V3 in H.
    destruct (cpos_get _ _) as [q|] eqn:Eq; [|discriminate]. cbn [rbind] in H. injection H as <- <-. auto.
  Qed.

  Lemma word_before_left : forall E z s w, e_words E = words -> zsame hs at_ z s ->
    get_word_before_cursor E true s = Val w -> left_is (words (zline z)) (length (before z)) w.
  Proof.
    intros E z s w HE Z H. unfold get_word_before_cursor in H.
    destruct (get_words_and_cursor_position E s) as [[ws p]|] eqn:Ew; [|discriminate].
    destruct (z_words E z s ws p HE Z Ew) as [-> Hp]. cbn [rbind] in H. injection H as <-.
    pose proof (pos_left _ _ _ (Hinc (zline z)) Hp) as P.
    destruct p as [i|[|i]|i|[i|] r]; cbn [andb Nat.ltb Nat.leb].
    - destruct P as [w [-> P]]; exact P.
    - exact (proj1 P).
    - replace (S i - 1) with i by lia. destruct P as [w [-> P]]; exact P.
    - destruct P as [w [-> P]]; exact P.
    - destruct P as [w [-> P]]; exact P.
    - exact P.
  Qed.
  Lemma left_is_word : forall z o, left_is (words (zline z)) (length (before z)) o ->
    word_left words z = match o with Some (s, _) => Some s | None => None end.
  Proof.
    intros z [[s e]|] H; unfold word_left; cbn [left_is] in H.
    - destruct H as [l ->]. reflexivity.
    - rewrite H. reflexivity.
  Qed.
  Lemma left_is_lt : forall z s e, left_is (words (zline z)) (length (before z)) (Some (s, e)) -> s < length (before z).
  Proof.
    intros z s e [l H]. assert (I : In (s, e) (filter (fun w : nat * nat => fst w <? length (before z)) (words (zline z)))).
    { apply in_rev. rewrite H. left. reflexivity. }
    apply filter_In in I. destruct I as [_ I]. apply Nat.ltb_lt in I. exact I.
  Qed.

  Lemma zk_kill_word : forall E z s, e_words E = words -> zstate hs at_ z s ->
    ok (delete_word_before_cursor E true) s (fun _ s' => zstate hs at_ (z_kill_word words z) s').
  Proof.
    intros E z s HE Z. destruct Z as [Z R]; pose proof Z as [[b [V [Hd Hu]]] _].
    assert (Hle : length (before z) <= length (data b)) by (rewrite Hd; unfold zline; rewrite app_length; lia).
    unfold delete_word_before_cursor. apply ok_bind, ok_get, ok_bind, ok_liftr. intros w Hw.
    pose proof (word_before_left E z s w HE Z Hw) as L. pose proof (left_is_word _ _ L) as Lw.
    unfold z_kill_word. rewrite Lw. destruct w as [[st en]|].
    - pose proof (left_is_lt _ _ _ L) as Hlt. pose proof V as [_ [_ [Hc _]]]. rewrite Hc.
      apply ok_bind. apply ok_bind. eapply ok_mono; [apply (ok_mut _ _ _ _ _ V)|].
      cbv beta. intros n s1 [b' [Hf [V1 S1]]]. apply ok_bind, ok_liftr. intros c1 Hc1. apply ok_modify.
      destruct (remove_cut _ _ _ _ _ Hf) as [a [m [r [D1 [D2 [D3 [D4 [-> ->]]]]]]]].
      unfold sub_chk in Hc1. destruct (length m <=? length (before z)) eqn:Em; [|discriminate]. injection Hc1 as <-.
      replace (length (before z) - length m) with (length a) by lia.
      eapply ok_mono; [apply (ok_display E _ _ _ _ (view_cursor (length a) _ _ _ _ V1))|].
      cbv beta. intros _ s' [L1 [L2 L3]].
      rewrite clamp_le in L1 by (unfold cut; cbn [data]; rewrite app_length; lia).
      assert (Hs : a ++ m = before z /\ r = after z).
      { apply (z_split z (data b) _ _ Hd); [rewrite <- app_assoc; exact D1|]. rewrite app_length. lia. }
      destruct Hs as [H1 H2].
      eapply z_cut; [exact Z|exact Hd|exact Hu|exact D1| | |reflexivity].
      + split; [exact L1|]. split; [|exact L3]. eapply stay_trans; [exact S1|]. eapply stay_trans; [apply stay_cursor|exact L2].
      + rewrite <- H1, <- H2. rewrite firstn_app_eq by lia. reflexivity.
    - apply ok_bind, ok_ret. eapply ok_mono; [apply (ok_display E _ _ _ _ V)|]. cbv beta. intros _ s' L1.
      eapply z_lands; [exact Z|exact L1| |exact Hd|exact Hu]. apply clamp_le. exact Hle.
  Qed.

  Lemma zk_put : forall E z s n, zstate hs at_ z s ->
    ok (move_cursor_to E n) s (fun _ s' => zstate hs at_ (put_cursor n z) s').
  Proof.
    intros E z s n Z. destruct Z as [Z R]; pose proof Z as [[b [V [Hd Hu]]] _].
    eapply ok_mono; [apply (ok_move_to E n _ _ _ _ V)|]. cbv beta. intros _ s' L.
    rewrite clamp_le in L by lia. eapply z_goto; [exact Z|exact L|exact Hd|exact Hu|reflexivity].
  Qed.
  Lemma zk_word_left : forall E z s, e_words E = words -> zstate hs at_ z s ->
    ok (emacs_move_word E false) s (fun _ s' => zstate hs at_ (z_word_left words z) s').
  Proof.
    intros E z s HE Z. unfold emacs_move_word. apply ok_bind, ok_get, ok_bind, ok_liftr. intros [ws p] Hw.
    destruct (z_words E z s ws p HE (proj1 Z) Hw) as [-> Hp]. pose proof (pos_left _ _ _ (Hinc (zline z)) Hp) as P.
    unfold z_word_left.
    assert (Go : forall i, (exists w, nth_error (words (zline z)) i = Some w /\
        left_is (words (zline z)) (length (before z)) (Some w)) ->
      ok (match nth_error (words (zline z)) i with
          | None => pan PUnwrap
          | Some (start, end_) => move_cursor_to E start
          end) s (fun _ s' => zstate hs at_ (match word_left words z with Some n => put_cursor n z | None => z end) s')).
    { intros i [[st en] [-> L]]. rewrite (left_is_word _ _ L). apply zk_put. exact Z. }
    destruct p as [i|[|i]|i|[i|] r]; apply ok_bind.
    - apply ok_ret. apply Go. exact P.
    - apply ok_ret. cbn [andb negb Nat.ltb Nat.leb]. destruct P as [L [e P]]. rewrite P.
      rewrite (left_is_word _ _ L). eapply ok_mono; [apply zk_put; exact Z|]. cbv beta. intros _ s' Z'.
      rewrite put_here in Z'. exact Z'.
    - apply ok_ret. cbn [andb negb Nat.ltb Nat.leb]. replace (S i - 1) with i by lia. apply Go. exact P.
    - apply ok_bind, ok_liftr. intros m _. apply ok_ret. rewrite andb_false_r. apply Go. exact P.
    - apply ok_ret. apply Go. exact P.
    - apply ok_ret. apply ok_ret. rewrite (left_is_word _ _ P). exact Z.
  Qed.
  Lemma zk_word_right : forall E z s, e_words E = words -> zstate hs at_ z s ->
    ok (emacs_move_word E true) s (fun _ s' => zstate hs at_ (z_word_right words z) s').
  Proof.
    intros E z s HE Z. unfold emacs_move_word. apply ok_bind, ok_get, ok_bind, ok_liftr. intros [ws p] Hw.
    destruct (z_words E z s ws p HE (proj1 Z) Hw) as [-> Hp]. pose proof (pos_right _ _ _ (Hinc (zline z)) Hp) as P.
    unfold z_word_right.
    assert (W : forall w, right_is (words (zline z)) (length (before z)) (Some w) -> word_right words z = Some (snd w)).
    { intros [x y] [l H]. unfold word_right. rewrite H. reflexivity. }
    assert (Wn : right_is (words (zline z)) (length (before z)) None -> word_right words z = None).
    { intro H. unfold word_right. cbn [right_is] in H. rewrite H. reflexivity. }
    assert (Go : forall i w, nth_error (words (zline z)) i = Some w ->
        right_is (words (zline z)) (length (before z)) (Some w) ->
      ok (match nth_error (words (zline z)) i with
          | None => pan PUnwrap
          | Some (start, end_) => move_cursor_to E end_
          end) s (fun _ s' => zstate hs at_ (match word_right words z with Some n => put_cursor n z | None => z end) s')).
    { intros i [st en] -> L. rewrite (W _ L). apply zk_put. exact Z. }
    destruct p as [i|i|i|l [i|]]; apply ok_bind.
    - apply ok_ret. destruct P as [w [P1 P2]]. apply (Go i w P1 P2).
    - apply ok_ret. rewrite andb_false_r. destruct P as [w [P1 P2]]. apply (Go i w P1 P2).
    - apply ok_bind, ok_liftr. intros m Hm. apply ok_ret. rewrite andb_true_r.
      destruct P as [st [P1 P2]]. unfold sub_chk in Hm. destruct (1 <=? length (words (zline z))) eqn:El; [|discriminate].
      injection Hm as <-. apply Nat.leb_le in El.
      destruct (nth_error (words (zline z)) (S i)) as [w|] eqn:Es.
      + assert (S i < length (words (zline z))) by (apply nth_error_Some; congruence).
        replace (i <? length (words (zline z)) - 1) with true by (symmetry; apply Nat.ltb_lt; lia).
        rewrite Nat.add_1_r. apply (Go (S i) w Es P2).
      + apply nth_error_None in Es.
        replace (i <? length (words (zline z)) - 1) with false by (symmetry; apply Nat.ltb_ge; lia).
        rewrite P1, (Wn P2). eapply ok_mono; [apply zk_put; exact Z|]. cbv beta. intros _ s' Z'.
        rewrite put_here in Z'. exact Z'.
    - apply ok_ret. destruct P as [w [P1 P2]]. apply (Go i w P1 P2).
    - apply ok_ret, ok_ret. rewrite (Wn P). exact Z.
  Qed.

  (** ** Suggestions *)

  Lemma longer_iff : forall t g, longer t g = true <-> extends t g.
  Proof.
    intros t g. unfold longer. rewrite andb_true_iff, Nat.ltb_lt. split.
    - intros [H1 H2]. destruct (list_eq_dec N.eq_dec (firstn (length t) g) t) as [H|]; [|discriminate].
      destruct (skipn (length t) g) as [|x r] eqn:Es.
      + assert (length (skipn (length t) g) = 0) by (rewrite Es; reflexivity). rewrite skipn_length in H0. lia.
      + exists x, r. rewrite <- (firstn_skipn (length t) g), H, Es. reflexivity.
    - intros [x [r ->]]. split; [rewrite app_length; cbn; lia|].
      rewrite firstn_app_eq by reflexivity. destruct (list_eq_dec N.eq_dec t t); congruence.
  Qed.
  Lemma find_newest : forall l t g, newest_extending l t g -> find (longer t) (rev l) = Some g.
  Proof.
    intros l t g [old [new [-> [H1 H2]]]]. rewrite rev_app_distr. cbn [rev]. rewrite <- app_assoc.
    assert (F : forall m r, (forall x, In x m -> ~ extends t x) -> find (longer t) (m ++ r) = find (longer t) r).
    { induction m as [|y m IH]; intros r Hm; [reflexivity|]. cbn [app find].
      destruct (longer t y) eqn:Ey; [apply longer_iff in Ey; exfalso; apply (Hm y); [left; reflexivity|exact Ey]|].
      apply IH. intros x Hx. apply Hm. right. exact Hx. }
    rewrite F; [|intros x Hx; apply H2; apply in_rev; exact Hx]. cbn [app find].
    apply longer_iff in H1. rewrite H1. reflexivity.
  Qed.
  Lemma find_none_newest : forall l t, (forall x, In x l -> ~ extends t x) -> find (longer t) (rev l) = None.
  Proof.
    intros l t H. destruct (find (longer t) (rev l)) as [x|] eqn:Ef; [|reflexivity].
    apply find_some in Ef. destruct Ef as [F1 F2]. apply longer_iff in F2. apply in_rev in F1. exfalso. eapply H; eauto.
  Qed.

  Lemma z_suggests : forall z s, at_ = None -> zstate hs at_ z s ->
    match ed_sugg s with
    | Some g => suggestion hs (zline z) = Some (data g) /\ extends (zline z) (data g)
    | None => suggestion hs (zline z) = None
    end.
  Proof.
    intros z s Hat [[[b [V [Hd _]]] [Hl [Hv [Ha Hh]]]] R]. specialize (Hv Hat). rewrite Hat in Hl. destruct (view_line _ _ _ _ V) as [b0 [B1 B2]].
    assert (b0 = ed_new s) by (unfold cur_buf in B1; rewrite Hl in B1; injection B1 as ->; reflexivity). subst b0.
    destruct V as [Vs _]. pose proof (suggestion_is s (ed_sugg s) Hl Hv Vs Ha R) as N.
    rewrite B2, Hd, Hh in N. destruct (ed_sugg s) as [g|].
    - destruct N as [N1 N2]. split.
      + unfold suggestion. destruct (zline z); [congruence|]. apply find_newest. exact N2.
      + destruct N2 as [old [new [_ [N2 _]]]]. exact N2.
    - unfold suggestion. destruct (zline z) as [|c t]; [reflexivity|]. destruct N as [N|N]; [discriminate|].
      apply find_none_newest. exact N.
  Qed.

  Lemma zk_accept : forall E z s g, at_ = None -> zstate hs at_ z s -> ed_sugg s = Some g -> extends (zline z) (data g) ->
    ok (accept_autosuggestion E) s (fun _ s' => zstate hs at_ (change (data g) [] z) s').
  Proof.
    intros E z s g Hat Z Hg [x [r Hx]]. destruct Z as [Z R]; pose proof Z as [[b [V [Hd Hu]]] [Hl [Hv [Ha Hh]]]].
    specialize (Hv Hat). rewrite Hat in Hl.
    pose proof V as [Vs _]. unfold accept_autosuggestion. apply ok_bind, ok_get. rewrite Ha. cbn [when].
    apply ok_bind. eapply ok_mono; [apply (ok_mut _ _ _ _ _ V)|]. cbv beta. intros u s1 [b' [Hf [V1 S1]]].
    rewrite Hg, Vs in Hf. unfold unit_op in Hf.
    destruct (extend_step b (data g)) as [ac [d' [E1 [E2 E3]]]].
    { rewrite Hd, Hx, app_length. lia. }
    replace (insert_from_buffer b g) with (insert_from_buffer b (buf_of (data g))) in Hf by reflexivity.
    rewrite E2 in Hf. cbn [rbind] in Hf. injection Hf as _ <-.
    assert (Hd' : d' = data g) by (rewrite E3, Hd, Hx, skipn_app_len; reflexivity). clear E3. subst d'.
    apply ok_bind, ok_modify.
    assert (V2 : view (clear_search s1) (mkBuf (data g) (ac :: actions b) []) (length (before z)) false).
    { destruct V1 as [_ [V2 [V3 V4]]]. split; [reflexivity|]. split; [exact V2|]. auto. }
    assert (Z2 : zsame hs at_ (change (data g) [] z) (set_cursor (length (data g)) (clear_search s1))).
    { destruct S1 as [K1 [K2 [K3 [_ [_ [_ [_ [_ [_ K]]]]]]]]]. destruct (K Hl) as [_ K4].
      split; [|unfold clear_search; edsimp; repeat split; congruence].
      exists (mkBuf (data g) (ac :: actions b) []). split; [exact (view_cursor _ _ _ _ _ V2)|].
      split; [unfold zline, change; cbn [before after data]; rewrite app_nil_r; reflexivity|].
      cbn [actions data change earlier]. rewrite <- Hd. 
      assert (Hae : ac <> AStart /\ ac <> AEnd).
      { split; intros ->; apply astep_do in E1; cbn [act_do] in E1; injection E1 as E1; rewrite Hd, Hx in E1;
          apply (f_equal (@length N)) in E1; rewrite app_length in E1; cbn [length] in E1; lia. }
      apply undoes_cons; [apply Hae|apply Hae|exact E1|exact Hu]. }
    pose proof Z2 as [[b2 [W1 [W2 W3]]] _].
    eapply ok_mono; [apply (ok_move_end E _ _ _ _ V2)|]. cbv beta. intros _ s' L.
    rewrite clamp_le in L by lia. destruct L as [L1 [L2 L3]]. split; [|exact L3].
    destruct Z2 as [Zb [Z3 [Z4 [Z5 Z6]]]]. edsimp_in Z3. edsimp_in Z4. edsimp_in Z5. edsimp_in Z6.
    destruct L2 as [K1 [K2 [K3 [_ [_ [_ [_ [_ [_ K]]]]]]]]]. rewrite Hat in Z3. specialize (Z4 Hat). destruct (K Z3) as [_ K4].
    split; [|repeat split; congruence]. exists (mkBuf (data g) (ac :: actions b) []).
    destruct Zb as [b3 [Y1 [Y2 Y3]]].
    destruct (view_det _ _ _ _ _ _ _ Y1 (view_cursor (length (data g)) _ _ _ _ V2)) as [-> _].
    split; [exact L1|]. auto.
  Qed.

  Lemma z_hint : forall z s, zstate hs at_ z s -> zstate hs at_ z (skip_completions_hint s).
  Proof.
    intros z s [[[b [V H]] H'] R]. split; [|exact R]. split; [|exact H'].
    exists b. split; [|exact H]. exact (view_hint None _ _ _ _ V).
  Qed.

  (** ** Sessions *)

  (** The keys as the key map itself sees them: without suggestions. *)
  Definition z_core (k : key) (z : zipper) : zipper :=
    match k with
    | KRight => z_right z
    | KCtrl c => if is_char c "f" then z_right z else z_key words hs k z
    | _ => z_key words hs k z
    end.

  Lemma ok_ignore : forall {A} (m : ME A) s (Q : ed -> Prop),
    ok m s (fun _ s' => Q s') -> ok (m ;;; ret tt) s (fun _ s' => Q s').
  Proof. intros A m s Q H. apply ok_bind. eapply ok_mono; [exact H|]. intros a s' H'. exact H'. Qed.

  Lemma is_char_eq : forall c x, is_char c x = true -> c = ch x.
  Proof. intros c x H. apply N.eqb_eq in H. exact H. Qed.

  Lemma zk_ctrl : forall E c z s, edits (KCtrl c) -> is_char c "h" = false -> e_words E = words -> zstate hs at_ z s ->
    ok (emacs_ctrl E c) s (fun _ s' => zstate hs at_ (z_core (KCtrl c) z) s').
  Proof.
    intros E c z s He Hh HE Z. unfold emacs_ctrl.
    Local Ltac kc c x := destruct (is_char c x) eqn:?H;
      [match goal with H : is_char c x = true |- _ => apply is_char_eq in H; subst c end; cbn [z_core z_key]|].
    kc c "l"%string; [apply zk_clear; exact Z|].
    kc c "a"%string; [apply zk_home; exact Z|].
    kc c "e"%string; [apply zk_end; exact Z|].
    kc c "b"%string; [apply zk_left; exact Z|].
    kc c "f"%string; [apply zk_right; exact Z|].
    kc c "d"%string; [apply zk_delete; exact Z|].
    kc c "p"%string; [exfalso; apply He; cbn; tauto|].
    kc c "n"%string; [exfalso; apply He; cbn; tauto|].
    kc c "u"%string; [apply zk_kill_before; exact Z|].
    kc c "k"%string; [apply zk_kill_after; exact Z|].
    kc c "w"%string; [apply zk_kill_word; assumption|].
    kc c "x"%string; [apply ok_ignore, zk_undo; exact Z|].
    apply ok_ret. unfold z_core, z_key.
    repeat match goal with H : is_char c _ = false |- _ => rewrite H; clear H end. exact Z.
  Qed.
  Lemma zk_alt : forall E c z x s, edits (KAlt c) -> e_words E = words -> zstate hs at_ z s ->
    ok (emacs_alt E c) (x, s) (fun _ y => zstate hs at_ (z_core (KAlt c) z) (snd y)).
  Proof.
    intros E c z x s He HE Z. unfold emacs_alt.
    kc c "<"%string; [exfalso; apply He; cbn; tauto|].
    kc c ">"%string; [exfalso; apply He; cbn; tauto|].
    destruct (N.eqb c c_del) eqn:Ed.
    { apply N.eqb_eq in Ed. subst c. cbn [z_core z_key]. apply ok_lift. apply zk_kill_word; assumption. }
    kc c "f"%string; [apply ok_lift, zk_word_right; assumption|].
    kc c "b"%string; [apply ok_lift, zk_word_left; assumption|].
    kc c "r"%string.
    { apply ok_bind, ok_lift. eapply ok_mono; [apply zk_revert; exact Z|]. intros a s' Z'. exact Z'. }
    kc c "."%string; [exfalso; apply He; cbn; tauto|].
    apply ok_ret. unfold z_core, z_key. rewrite Ed.
    repeat match goal with H : is_char c _ = false |- _ => rewrite H; clear H end. exact Z.
  Qed.

  Lemma zk_core : forall E k z x s, edits k -> k <> KCtrl (ch "h") -> e_words E = words -> zstate hs at_ z s ->
    ok (emacs_core E k) (x, s) (fun _ y => zstate hs at_ (z_core k z) (snd y)).
  Proof.
    intros E k z x s He Hk HE Z. unfold emacs_core.
    assert (G : forall x', ok (match k with
      | KChar c => lift (insert_after_cursor E c)
      | KAlt c => emacs_alt E c
      | KCtrl c => lift (emacs_ctrl E c)
      | KLeft => lift (move_cursor_left E 1)
      | KRight => lift (move_cursor_right E 1)
      | KUp => lift (move_up E)
      | KDown => lift (move_down E)
      | KHome => lift (move_cursor_to_start_of_line E)
      | KEnd => lift (move_cursor_to_end_of_line E)
      | KBackspace => lift (delete_before_cursor E)
      | KDelete => lift (delete_after_cursor E)
      | KNull | KEsc | KOther _ => ret tt
      end) (x', s) (fun _ y => zstate hs at_ (z_core k z) (snd y))).
    { intro x'. destruct k; try contradiction; cbn [z_core z_key];
        try (apply ok_ret; exact Z); try (apply ok_lift).
      - apply zk_type; exact Z.
      - apply zk_alt; assumption.
      - apply (zk_ctrl E c z s He); [|assumption|assumption].
        destruct (is_char c "h") eqn:Eh; [|reflexivity]. apply is_char_eq in Eh. subst c. congruence.
      - apply zk_left; exact Z.
      - apply zk_right; exact Z.
      - apply zk_home; exact Z.
      - apply zk_end; exact Z.
      - apply zk_backspace; exact Z.
      - apply zk_delete; exact Z. }
    destruct k; apply ok_bind; try (apply ok_modk; apply G).
    destruct (is_char c "."); [apply ok_ret|apply ok_modk]; apply G.
  Qed.

  Lemma right_at_end : forall z, after z = [] -> z_right z = z.
  Proof.
    intros [b a p] Ha. cbn [after] in Ha. subst a. unfold z_right, put_cursor, zline. cbn [before after earlier].
    rewrite app_nil_r, firstn_all2, skipn_all2 by lia. reflexivity.
  Qed.

  Lemma zk_handle : forall E k z x s, at_ = None -> edits k -> e_words E = words -> zstate hs at_ z s ->
    ok (handle_key emacs_core E k) (x, s) (fun d y => d = false /\ zstate hs at_ (z_key words hs k z) (snd y)).
  Proof.
    intros E k z x s Hat He HE Z. pose proof Z as [[[b [V [Hd Hu]]] _] _].
    destruct (view_line _ _ _ _ V) as [b0 [B1 B2]]. pose proof V as [_ [_ [Vc Vn]]].
    pose proof (fun H => z_suggests z s H Z) as Sg0.
    assert (Fin : forall (m : MK emacs bool),
      ok m (x, s) (fun d y => d = false /\ zstate hs at_ (z_key words hs k z) (snd y)) ->
      ok (done <- m ;; (if e_wok E then ret done else fail EOther)) (x, s)
         (fun d y => d = false /\ zstate hs at_ (z_key words hs k z) (snd y))).
    { intros m H. apply ok_bind. eapply ok_mono; [exact H|]. intros d y [-> Hy]. destruct (e_wok E); [split; auto|exact I]. }
    assert (Other : forall k', edits k' -> k' <> KCtrl (ch "h") -> z_core k' z = z_key words hs k z ->
      ok (emacs_core E k' ;;; mod_ed skip_completions_hint ;;; ret false) (x, s)
         (fun d y => d = false /\ zstate hs at_ (z_key words hs k z) (snd y))).
    { intros k' H1 H2 H3. apply ok_bind. eapply ok_mono; [apply (zk_core E k' z x s H1 H2 HE Z)|].
      intros u [x' s'] Z'. apply ok_bind, ok_mod_ed, ok_ret. split; [reflexivity|]. rewrite <- H3.
      apply z_hint. exact Z'. }
    assert (Acc : at_ = None -> forall g, ed_sugg s = Some g -> z_key words hs k z = change (data g) [] z ->
      ok (lift (accept_autosuggestion E) ;;; ret false) (x, s)
         (fun d y => d = false /\ zstate hs at_ (z_key words hs k z) (snd y))).
    { intros Ha g Hg Hk. pose proof (Sg0 Ha) as Sg. rewrite Hg in Sg. destruct Sg as [_ Sg]. apply ok_bind, ok_lift.
      eapply ok_mono; [apply (zk_accept E z s g Ha Z Hg Sg)|]. intros u s' Z'. apply ok_ret. split; [reflexivity|].
      rewrite Hk. exact Z'. }
    unfold handle_key. apply ok_gete. rewrite B1. apply ok_bind. unfold ok at 1. cbv zeta.
    apply Fin. destruct k as [c|c|c| | | | | | | | | | |]; try contradiction;
      try (apply Other; [exact He|discriminate|reflexivity]).
    - destruct He as [H1 H2]. apply N.eqb_neq in H1, H2. rewrite H1, H2.
      apply Other; [split; apply N.eqb_neq; assumption|discriminate|reflexivity].
    - cbn [edits] in He. cbn [is_char].
      destruct (is_char c "h") eqn:Eh.
      { apply is_char_eq in Eh. subst c. apply Other; [exact I|discriminate|reflexivity]. }
      kc c "c"%string; [exfalso; apply He; cbn; tauto|].
      destruct (is_char c "d" && buf_is_empty b0).
      { apply ok_bind. apply ok_in. intros a y _. apply ok_fail. }
      destruct (is_char c "f") eqn:Ef; cbn [andb].
      { apply is_char_eq in Ef. subst c. pose proof (Sg0 Hat) as Sg. specialize (Acc Hat).
        unfold showing_autosuggestion. destruct (ed_sugg s) as [g|] eqn:Eg.
        - destruct Sg as [Sg1 Sg2]. apply (Acc g eq_refl). cbn [z_key]. 
          change (z_accept hs z (z_right z) = change (data g) [] z). unfold z_accept. rewrite Sg1. reflexivity.
        - cbn [andb]. change (is_char (ch "f") "r") with false. change (is_char (ch "f") "s") with false. cbv iota.
          apply Other; [exact He|discriminate|].
          change (z_right z = z_accept hs z (z_right z)). unfold z_accept. rewrite Sg. reflexivity. }
      kc c "r"%string; [exfalso; apply He; cbn; tauto|].
      kc c "s"%string; [exfalso; apply He; cbn; tauto|].
      apply Other; [exact He| |unfold z_core; rewrite Ef; reflexivity].
      intro Hc. injection Hc as ->. discriminate.
    - (* Right *)
      pose proof (Sg0 Hat) as Sg. specialize (Acc Hat).
      unfold cursor_is_at_end_of_line. rewrite B1, Vn, Vc. cbn [rbind]. unfold num_chars. rewrite B2, Hd.
      unfold showing_autosuggestion. destruct (ed_sugg s) as [g|] eqn:Eg.
      + apply ok_bind. unfold ok at 1. unfold zline at 1. rewrite app_length.
        destruct (length (before z) =? length (before z) + length (after z)) eqn:El.
        * apply Nat.eqb_eq in El. destruct (after z) as [|y r] eqn:Ea; [|cbn [length] in El; lia].
          apply (Acc g eq_refl). cbn [z_key]. rewrite Ea. unfold z_accept. destruct Sg as [-> _]. reflexivity.
        * apply Nat.eqb_neq in El. apply Other; [exact I|discriminate|]. cbn [z_core z_key].
          destruct (after z); [cbn [length] in El; lia|reflexivity].
      + apply Other; [exact I|discriminate|]. cbn [z_core z_key]. destruct (after z) eqn:Ea; [|reflexivity].
        unfold z_accept. rewrite Sg. apply right_at_end. exact Ea.
  Qed.

  Fixpoint z_keys (ks : list key) (z : zipper) : zipper :=
    match ks with [] => z | k :: ks' => z_keys ks' (z_key words hs k z) end.
  Lemma zk_run : forall l z x s, at_ = None -> Forall (fun x => edits (snd x) /\ e_words (fst x) = words) l -> zstate hs at_ z s ->
    ok (run_keys emacs_core l) (x, s)
       (fun d y => d = false /\ zstate hs at_ (z_keys (map snd l) z) (snd y)).
  Proof.
    induction l as [|[E k] l IH]; intros z x s Hat Hl Z; cbn [run_keys map z_keys].
    - apply ok_ret. auto.
    - destruct (Forall_inv Hl) as [H1 H2]. pose proof (Forall_inv_tail Hl) as H3. cbn [fst snd] in *. apply ok_bind.
      eapply ok_mono; [apply (zk_handle E k z x s); assumption|].
      intros d [x' s'] [-> Z']. apply IH; try assumption.
  Qed.
End Keys.

Lemma z_new : forall E p f ib h w cb ttys s, actions ib = [] ->
  editor_new E p f ib h w cb ttys = ORet tt s ->
  zstate (texts h) None (mkZ (data ib) [] []) s.
Proof.
  intros E p f ib h w cb ttys s Ha H. unfold editor_new in H. cbv zeta in H. destruct (e_wok E); [|discriminate].
  cbn [negb] in H. set (s0 := mkEd _ _ _ _ _ _ _ _ _ _ _ _ _ _ _ _ _ _ _ _ _ _) in H.
  revert H. match goal with |- ?m s0 = _ -> _ => assert (K : ok m s0 (fun _ s' => zstate (texts h) None (mkZ (data ib) [] []) s')) end.
  - apply ok_bind, ok_liftr. intros n _. apply ok_bind.
    assert (G : ok (tty_write E (init_toks n (pr_prompt p))) s0
       (fun _ s1 => view s1 ib 0 false /\ ed_loc s1 = None /\ ed_hvalid s1 = false /\ ed_showauto s1 = true /\ texts (ed_history s1) = texts h)).
    { unfold tty_write, ok. destruct (e_wok E); [|exact I]. split; [|repeat split; reflexivity].
      split; [reflexivity|]. split; [exists ib; split; reflexivity|]. split; reflexivity. }
    eapply ok_mono; [exact G|]. intros u s1 [V [H1 [H2 [H3 H4]]]].
    assert (Fin : forall s2, view s2 ib (length (data ib)) false -> stay s1 s2 ->
      ok (display E) s2 (fun _ s' => zstate (texts h) None (mkZ (data ib) [] []) s')).
    { intros s2 V2 S2. eapply ok_mono; [apply (ok_display E _ _ _ _ V2)|]. cbv beta. intros _ s' L.
      rewrite clamp_le in L by lia.
      destruct S2 as [K1 [K2 [K3 [_ [_ [_ [_ [_ [_ K]]]]]]]]]. destruct (K H1) as [_ K4].
      eapply (z_lands (texts h) None (mkZ (data ib) [] []) s2); [|exact L|reflexivity| |].
      - split; [|repeat split; congruence]. exists ib. split; [exact V2|].
        split; [unfold zline; cbn; rewrite app_nil_r; reflexivity|]. rewrite Ha. constructor.
      - unfold zline. cbn. rewrite app_nil_r. reflexivity.
      - rewrite Ha. constructor. }
    apply ok_bind. unfold buf_is_empty. destruct (nonempty (data ib)) eqn:En; cbn [negb when].
    + eapply ok_mono; [apply (ok_move_end E _ _ _ _ V)|]. cbv beta. intros _ s2 [L1 [L2 _]].
      rewrite clamp_le in L1 by lia. apply Fin; assumption.
    + apply ok_ret. apply Fin; [|apply stay_refl]. apply nonempty_false in En. rewrite En. exact V.
  - intro H. exact (ok_of _ _ _ _ _ K H).
Qed.

Theorem emacs_is_pure : forall words E p f ib h w cb ttys s l d x s',
  (forall t, increasing (words t)) -> actions ib = [] ->
  editor_new E p f ib h w cb ttys = ORet tt s ->
  Forall (fun y => edits (snd y) /\ e_words (fst y) = words) l ->
  run_keys emacs_core l (emacs_new, s) = ORet d (x, s') ->
  d = false /\
  let z := fold_left (fun z k => z_key words (texts h) k z) (map snd l) (mkZ (data ib) [] []) in
  line_is s' (zline z) (length (before z)).
Proof.
  intros words E p f ib h w cb ttys s l d x s' Hw Ha H0 Hl H.
  pose proof (z_new _ _ _ _ _ _ _ _ _ Ha H0) as Z.
  pose proof (ok_of _ _ _ _ _ (zk_run (texts h) None words Hw l _ emacs_new s eq_refl Hl Z) H) as [Hd Z'].
  split; [exact Hd|]. cbv zeta. cbn [snd] in Z'.
  assert (Hf : forall ks z, z_keys (texts h) words ks z = fold_left (fun z k => z_key words (texts h) k z) ks z).
  { induction ks as [|k ks IH]; intro z; [reflexivity|]. exact (IH _). }
  rewrite Hf in Z'. set (z := fold_left _ _ _) in *. destruct Z' as [[[b [V [Hb _]]] _] _].
  destruct (view_line _ _ _ _ V) as [b0 [B1 B2]]. exists b0. split; [exact B1|]. split; [congruence|].
  exact (proj1 (proj2 (proj2 V))).
Qed.

Lemma default_increasing : forall t, increasing (get_buffer_words t).
Proof. intro t. apply apart_inc. destruct (get_buffer_words_ok t) as [_ [H _]]. exact H. Qed.
