(** Typing in Vi insert mode, and undoing it. *)
From Verif Require Import Base Utf8 BufferModel BufferSpec UtilModel HistoryModel EditorState EditorModel
  KeymapModel ViModel MonadLemmas EditorLemmas CursorProofs Lemmas BufferProofs BufferGroups EditorSpec EditorProofs
  EditorOps ViSpec ViEffects ViModes ViRepeat ViMotion ViKeys ViCommands.
Local Open Scope monad_scope.

(** * Loops *)

Lemma okv_nloop : forall (I : nat -> vi -> ed -> Prop) body n i v s,
  (forall i v s, I i v s -> okv body v s (fun g v' s' => g = true /\ I (S i) v' s')) ->
  I i v s -> okv (nloop n body) v s (fun _ v' s' => I (i + n) v' s').
Proof.
  intros I body n. induction n as [|n IH]; intros i v s Hb HI.
  - rewrite Nat.add_0_r. exact HI.
  - cbn [nloop]. eapply okv_seq; [apply (Hb i); exact HI|]. intros g v' s' [-> HI'].
    rewrite <- Nat.add_succ_comm. apply IH; assumption.
Qed.
Lemma okv_Nloop : forall (I : nat -> vi -> ed -> Prop) body n v s,
  (forall i v s, I i v s -> okv body v s (fun g v' s' => g = true /\ I (S i) v' s')) ->
  I 0 v s -> okv (Nloop n body) v s (fun _ v' s' => I (N.to_nat n) v' s').
Proof.
  intros I body n v s Hb HI. destruct n as [|p]; [exact HI|]. cbn [Nloop].
  eapply okv_seq.
  - unfold okv. rewrite ploop_nloop. exact (okv_nloop I body (Pos.to_nat p) 0 v s Hb HI).
  - intros g v' s' H. apply okv_ret. exact H.
Qed.

(** * Keys typed in insert mode *)

(** The recursive calls are real ones. *)
Lemma okv_core_rec : forall E k v s Q,
  (forall f, okv (match vmode_of v with
    | MNormal => vi_normal (vi_core_fuel (S f) E) E k
    | MInsert => vi_insert (vi_core_fuel (S f) E) E k
    | MReplace => vi_replace E k
    | MDelete _ => vi_delete_or_change (vi_core_fuel (S f) E) E k
    | MMoveToChar m => vi_move_to_char E k m
    | MG => vi_g E k
    | MTilde => pan PUnreach
    end) v s Q) -> okv (vi_core E k) v s Q.
Proof.
  intros E k v s Q H. unfold vi_core. apply okv_getk.
  replace (vi_fuel v) with (S (S (3 * (length (v_last v) + length (v_cur v)) + 8))) by (unfold vi_fuel; lia).
  cbn [vi_core_fuel]. apply okv_getk. apply H.
Qed.
Lemma okv_rec_insert : forall f E k v s Q, vmode_of v = MInsert ->
  (forall rec, okv (vi_insert rec E k) v s Q) -> okv (vi_core_fuel (S f) E k) v s Q.
Proof. intros f E k v s Q Hm H. cbn [vi_core_fuel]. apply okv_getk. rewrite Hm. apply H. Qed.

(** What was recorded since insert mode was entered on the text [d0], after the
    actions [acts]; [g]: something was. *)
Definition recording (acts : list action) (d0 : text) (g : bool) (b : buffer) : Prop :=
  exists gr, Forall is_edit gr /\ actions b = gr ++ AStart :: acts /\ past d0 gr (data b) /\ (g = true -> gr <> []).

Lemma recording_put : forall acts d0 g b a t r, recording acts d0 g b -> data b = a ++ r ->
  recording acts d0 true (put b a t r).
Proof.
  intros acts d0 g b a t r [gr [H1 [H2 [H3 _]]]] Hd. exists (AInsert (length a) t :: gr).
  split; [constructor; [split; discriminate|exact H1]|]. split; [cbn; rewrite H2; reflexivity|].
  split; [|discriminate]. econstructor; [exact H3|]. rewrite Hd. cbn [data put]. constructor.
Qed.
Lemma recording_cut : forall acts d0 g b a m r, recording acts d0 g b -> data b = a ++ m ++ r ->
  recording acts d0 true (cut b a m r).
Proof.
  intros acts d0 g b a m r [gr [H1 [H2 [H3 _]]]] Hd. exists (ARemove (length a) m :: gr).
  split; [constructor; [split; discriminate|exact H1]|]. split; [cbn; rewrite H2; reflexivity|].
  split; [|discriminate]. econstructor; [exact H3|]. rewrite Hd. cbn [data cut]. constructor.
Qed.
Lemma recording_start : forall b, recording (actions b) (data b) false (start_undo_group b).
Proof. intro b. exists []. split; [constructor|]. split; [reflexivity|]. split; [constructor|discriminate]. Qed.
Lemma recording_weak : forall acts d0 g g' b, recording acts d0 g b -> (g' = true -> g = true) -> recording acts d0 g' b.
Proof. intros acts d0 g g' b [gr [H1 [H2 [H3 H4]]]] H. exists gr. intuition. Qed.
(** Undoing it. *)
Lemma recording_undo : forall acts d0 b, recording acts d0 true b ->
  exists u, buf_undo (end_undo_group b) = Val (true, mkBuf d0 acts u).
Proof.
  intros acts d0 b [gr [H1 [H2 [H3 H4]]]]. unfold end_undo_group. rewrite H2.
  assert (Hs : shapes (rev gr)).
  { clear - H1. apply Forall_rev in H1. induction H1; constructor; assumption. }
  exists ((AStart :: rev gr ++ [AEnd]) ++ undone b).
  pose proof (undo_shape (AStart :: rev gr ++ [AEnd])) as H. rewrite <- (H (sh_group (rev gr) Hs ltac:(
    intro E0; apply H4; [reflexivity|]; rewrite <- (rev_involutive gr), E0; reflexivity)) acts (undone b) d0 (data b)).
  - cbn [rev]. rewrite rev_app_distr, rev_involutive. cbn [rev app]. rewrite <- app_assoc. reflexivity.
  - cbn [rev]. rewrite rev_app_distr, rev_involutive. cbn [rev app].
    econstructor; [|constructor]. eapply past_app; [|exact H3]. econstructor; constructor.
Qed.

(** Typing goes between the texts of [z]. *)
Definition at_place (acts : list action) (d0 : text) (g : bool) (z : text * text) (v : vi) (s : ed) : Prop :=
  exists b, inserting v s b (length (fst z)) /\ data b = fst z ++ snd z /\ recording acts d0 g b.

Definition real_char (k : key) : bool := match k with KChar _ => true | _ => false end.

Lemma at_place_set_last : forall acts d0 g z v s l, at_place acts d0 g z v s -> at_place acts d0 g z (vset_last l v) s.
Proof. intros acts d0 g z v s l H. exact H. Qed.

Lemma okv_typed : forall rec E k acts d0 g z v s, typed k -> at_place acts d0 g z v s ->
  okv (vi_insert rec E k) v s (fun _ v' s' =>
    v' = vset_last (v_last v ++ [k]) v /\ at_place acts d0 (g || real_char k) (type1 z k) v' s').
Proof.
  intros rec E k acts d0 g [a r] v s Hk [b [[I1 [I2 [I3 I4]]] [Hd Hr]]]. cbn [fst snd] in *.
  assert (Hreset : insert_reset (v, s) = ORet tt (v, s)).
  { unfold insert_reset, bind, getk. rewrite I2. reflexivity. }
  assert (Hgo : forall (m : MV unit) Q, okv m (vset_last (v_last v ++ [k]) v) s Q ->
    okv (insert_reset ;;; push_last k ;;; m) v s Q).
  { intros m Q H. unfold okv, bind at 1. rewrite Hreset. exact H. }
  destruct k as [x|x|x| | | | | | | | | | |]; try contradiction; cbn [vi_insert real_char type1 fst snd].
  - apply Hgo. apply okv_lift. unfold insert_after_cursor.
    eapply ok_mono; [apply (ok_insert E [x] _ _ _ _ a r I3 Hd eq_refl)|]. intros ? s' [V' _].
    split; [reflexivity|]. exists (put b a [x] r). split; [split; [exact I1|]; split; [exact I2|]|].
    + rewrite clamp_false in V' by (rewrite !app_length; lia). split; [exact V'|].
      cbn [put data fst]. rewrite !app_length. lia.
    + split; [cbn; rewrite <- app_assoc; reflexivity|]. rewrite orb_true_r. eapply recording_put; eauto.
  - apply Hgo. apply okv_lift.
    eapply ok_mono; [apply (ok_delete_before E _ _ _ _ I3)|]. intros ? s' [[H0 [V' _]]|[a' [y [r' [H1 [H2 [H3 [V' _]]]]]]]].
    + destruct a; [|discriminate]. split; [reflexivity|]. exists b. rewrite orb_false_r.
      split; [split; [exact I1|]; split; [exact I2|]; split; [exact V'|cbn; lia]|]. auto.
    + split; [reflexivity|].
      assert (a = a' ++ [y] /\ r = r') as [-> ->].
      { rewrite Hd, app_assoc in H1. apply app_eq_length in H1; [exact H1|]. rewrite app_length. cbn. lia. }
      rewrite removelast_last. exists (cut b a' [y] r'). rewrite clamp_false in V' by (rewrite app_length; lia).
      split; [split; [exact I1|]; split; [exact I2|]; split; [exact V'|]|].
      * cbn [cut data fst]. rewrite app_length. lia.
      * split; [reflexivity|]. rewrite orb_false_r. eapply recording_weak; [eapply recording_cut; eauto|auto].
  - apply Hgo. apply okv_lift.
    eapply ok_mono; [apply (ok_delete_after E _ _ _ _ I3)|]. intros ? s' [[H0 [V' _]]|[a' [y [r' [H1 [H2 [V' _]]]]]]].
    + rewrite Hd, app_length in H0. destruct r; [|cbn in H0; lia]. split; [reflexivity|]. exists b. rewrite orb_false_r.
      rewrite clamp_false in V' by (rewrite Hd, app_nil_r; lia).
      split; [split; [exact I1|]; split; [exact I2|]; split; [exact V'|exact I4]|]. auto.
    + split; [reflexivity|].
      assert (a = a' /\ r = [y] ++ r') as [-> ->].
      { rewrite Hd in H1. apply app_eq_length in H1; [exact H1|]. lia. }
      exists (cut b a' [y] r'). rewrite clamp_false in V' by (rewrite app_length; lia).
      split; [split; [exact I1|]; split; [exact I2|]; split; [exact V'|]|].
      * cbn [cut data fst]. rewrite app_length. lia.
      * split; [reflexivity|]. rewrite orb_false_r. eapply recording_weak; [eapply recording_cut; eauto|auto].
Qed.

Lemma inserting_mode : forall v s b c, inserting v s b c -> vmode_of v = MInsert.
Proof. intros v s b c [H _]. unfold vmode_of. rewrite H. reflexivity. Qed.
Lemma at_place_mode : forall acts d0 g z v s, at_place acts d0 g z v s -> vmode_of v = MInsert.
Proof. intros acts d0 g z v s [b [H _]]. exact (inserting_mode _ _ _ _ H). Qed.
Lemma at_place_hint : forall acts d0 g z v s h, at_place acts d0 g z v s -> at_place acts d0 g z v (set_hint h s).
Proof.
  intros acts d0 g z v s h [b [[I1 [I2 [I3 I4]]] H]]. exists b. split; [|exact H].
  split; [exact I1|]. split; [exact I2|]. split; [apply view_hint; exact I3|exact I4].
Qed.
Lemma typed_passes : forall k, typed k -> passes k.
Proof. intros [x|x|x| | | | | | | | | | |] H; try contradiction; exact H. Qed.

Lemma typing_typed : forall P tk acts d0 g z v s, Forall typed tk -> at_place acts d0 g z v s ->
  typing P tk v s (fun v' s' => v' = vset_last (v_last v ++ tk) v /\
    at_place acts d0 (g || existsb real_char tk) (type_on tk z) v' s').
Proof.
  intros P tk. induction tk as [|k tk IH]; intros acts d0 g z v s Hk Hp.
  - apply typing_nil. cbn [existsb]. rewrite app_nil_r, orb_false_r. split; [destruct v; reflexivity|exact Hp].
  - inversion_clear Hk as [|? ? K1 K2]. apply typing_cons; [apply typed_passes; exact K1|]. intros E _.
    apply okv_core. intro rec. rewrite (at_place_mode _ _ _ _ _ _ Hp).
    eapply okv_mono; [apply okv_typed; [exact K1|exact Hp]|]. intros ? v1 s1 [-> Hp1].
    eapply typing_mono; [apply IH; [exact K2|apply at_place_hint; exact Hp1]|].
    intros v2 s2 [-> Hp2]. cbn [existsb]. rewrite orb_assoc. split; [|exact Hp2].
    cbn [v_last vset_last]. rewrite <- app_assoc. reflexivity.
Qed.

(** Keys played again. *)
Lemma okv_replay : forall f E tk acts d0 g z v s, Forall typed tk -> at_place acts d0 g z v s ->
  okv (mfor tk (vi_core_fuel (S f) E)) v s (fun _ v' s' =>
    v' = vset_last (v_last v ++ tk) v /\ at_place acts d0 g (type_on tk z) v' s').
Proof.
  intros f E tk. induction tk as [|k tk IH]; intros acts d0 g z v s Hk Hp; cbn [mfor].
  - apply okv_ret. rewrite app_nil_r. split; [destruct v; reflexivity|exact Hp].
  - inversion_clear Hk as [|? ? K1 K2].
    eapply okv_seq; [apply okv_rec_insert; [exact (at_place_mode _ _ _ _ _ _ Hp)|intro rec; apply okv_typed; [exact K1|exact Hp]]|].
    intros ? v1 s1 [-> [b [B1 [B2 B3]]]].
    eapply okv_mono; [apply (IH acts d0 g); [exact K2|]|].
    + exists b. split; [exact B1|]. split; [exact B2|]. eapply recording_weak; [exact B3|]. intros ->. reflexivity.
    + intros ? v2 s2 [-> Hp2]. split; [|exact Hp2]. cbn [v_last vset_last]. rewrite <- app_assoc. reflexivity.
Qed.

(** Leaving insert mode. *)
Definition left_insert (acts : list action) (d0 : text) (g : bool) (z : text * text) (v : vi) (s : ed) : Prop :=
  exists b, calm v s (end_undo_group b) (length (fst z) - 1) /\ data b = fst z ++ snd z /\ recording acts d0 g b.
Lemma okv_leave : forall E acts d0 g z v s, at_place acts d0 g z v s -> v_count v = 0%N ->
  okv (lift (move_cursor_left E 1) ;;; pop_mode E) v s (fun _ v' s' =>
    left_insert acts d0 g z v' (set_hint None s')).
Proof.
  intros E acts d0 g z v s [b [[I1 [I2 [I3 I4]]] [Hd Hr]]] Hc.
  eapply okv_lands; [apply (ok_move_left E 1 _ _ _ _ I3)|]. intros ? s1 [V1 _].
  rewrite clamp_false in V1 by lia. unfold pop_mode. apply okv_getk.
  assert (vpop v = (MInsert, vset_stack [] v)) as -> by (unfold vpop; rewrite I1; reflexivity).
  cbv iota beta zeta. apply okv_modk, okv_mod_ed. cbn [is_insert is_tilde orb when]. apply okv_bind, okv_lift.
  eapply ok_mono; [apply ok_mut; eapply view_noeol; exact V1|]. intros ? s2 [b2 [Hb2 [V2 _]]].
  unfold pure_op in Hb2. injection Hb2 as _ <-. apply okv_bind, okv_ret.
  eapply okv_mono; [eapply okv_set_editor_mode; [left; reflexivity|exact V2]|]. intros ? v3 s3 [-> V3].
  cbn [vmode_of v_stack vset_stack vset_reset is_normal data end_undo_group] in V3.
  exists b. split; [|auto]. split; [reflexivity|]. split; [exact Hc|].
  assert (Hin : length (fst z) - 1 < length (data b) \/ data b = [] /\ length (fst z) - 1 = 0).
  { rewrite Hd. destruct (fst z) as [|x zz]; [|left; rewrite app_length; cbn; lia].
    destruct (snd z); [right; auto|left; cbn; lia]. }
  rewrite clamp_calm in V3 by exact Hin. split; [apply view_hint; exact V3|exact Hin].
Qed.

Lemma type_times_S : forall n ks z, type_times (S n) ks z = type_on ks (type_times n ks z).
Proof. induction n as [|n IH]; intros ks z; [reflexivity|]. cbn [type_times] in *. rewrite IH. reflexivity. Qed.

Lemma typing_esc : forall P tk n acts d0 g z v s, Forall typed tk ->
  at_place acts d0 g (type_on tk z) v s ->
  (v_count v = 0%N /\ n = 1 \/ v_last v = tk /\ N.to_nat (v_count v) = n /\ 0 < n) ->
  typing P [KEsc] v s (left_insert acts d0 g (type_times n tk z)).
Proof.
  intros P tk n acts d0 g z v s Hk Hp Hn. apply typing_cons; [exact I|]. intros E _.
  apply okv_core_rec. intro f. rewrite (at_place_mode _ _ _ _ _ _ Hp). cbn [vi_insert].
  assert (Hfin : forall v s, at_place acts d0 g (type_times n tk z) v s -> v_count v = 0%N ->
    okv (lift (move_cursor_left E 1) ;;; pop_mode E) v s (fun _ v' s' =>
      typing P [] v' (set_hint None s') (left_insert acts d0 g (type_times n tk z)))).
  { intros v1 s1 H1 H2. eapply okv_mono; [apply okv_leave; [exact H1|exact H2]|].
    intros ? v2 s2 H3. apply typing_nil. exact H3. }
  apply okv_getk. apply okv_bind.
  destruct Hn as [[Hn ->]|[Hl [Hn H0]]].
  - rewrite Hn. change (0 <? 0)%N with false. cbn [when]. apply okv_ret. apply Hfin; [exact Hp|exact Hn].
  - assert ((0 <? v_count v)%N = true) as -> by (apply N.ltb_lt; lia). cbn [when].
    apply okv_modk. eapply okv_seq.
    + apply (okv_Nloop (fun i v' s' => v_last v' = tk /\ at_place acts d0 g (type_times (S i) tk z) v' s')).
      * intros i v1 s1 [L1 P1]. apply okv_getk, okv_modk. rewrite L1.
        eapply okv_seq; [apply (okv_replay f E tk acts d0 g); [exact Hk|exact P1]|].
        intros ? v2 s2 [-> P2]. apply okv_ret. split; [reflexivity|]. split; [reflexivity|].
        rewrite <- type_times_S in P2. exact P2.
      * split; [exact Hl|exact Hp].
    + intros ? v1 s1 [L1 P1]. apply okv_modk1. apply Hfin; [|reflexivity].
      replace (S (N.to_nat (v_count v - 1))) with n in P1 by lia. exact P1.
Qed.

(** Undo in normal mode. *)
Lemma typing_u : forall P v s b c b', calm v s b c -> buf_undo b = Val (true, b') ->
  typing P [kch "u"] v s (fun v' s' => calm v' s' b' (length (data b') - 1)).
Proof.
  intros P v s b c b' HC Hu. change [kch "u"] with ([] ++ [kch "u"]).
  eapply typing_counted; [exact HC|exact count_none|split; discriminate|].
  intros E rec v1 s1 _ Hv1 Hmc Hst V. unfold kch, vi_normal. decide_okv.
  apply okv_getk, okv_modk. rewrite Hmc. cbn [Nloop ploop]. apply okv_bind, okv_lift.
  eapply ok_mono; [apply (ok_undo_like E buf_undo _ _ _ _ V)|]. intros did s2 [b2 [H2 [V2 _]]].
  rewrite Hu in H2. injection H2 as <- <-. apply okv_ret. cbv iota in V2. rewrite clamp_end in V2.
  split; [exact Hst|]. split; [reflexivity|]. split; [apply view_hint; exact V2|].
  destruct (data b') as [|x t]; [right; auto|left; cbn; lia].
Qed.

(** * Entering insert mode *)
Lemma firstn_skipn_len : forall (t : text) c, c <= length t ->
  length (firstn c t) = c /\ t = firstn c t ++ skipn c t.
Proof. intros t c H. split; [apply firstn_length_le; exact H|symmetry; apply firstn_skipn]. Qed.

Lemma typing_enter : forall P ks n k z times v s b c, calm v s b c -> count ks n ->
  insert_at (data b) c n k z times ->
  typing P (ks ++ [k]) v s (fun v' s' => exists g, at_place (actions b) (data b) g z v' s' /\
    (v_count v' = 0%N /\ times = 1 \/ v_last v' = [] /\ N.to_nat (v_count v') = times /\ 0 < times)).
Proof.
  intros P ks n k z times v s b c HC Hk Hi.
  assert (Hp : passes k) by (destruct Hi; split; discriminate).
  pose proof (in_line (data b) c (proj2 (proj2 (proj2 HC)))) as Hle.
  pose proof (count_pos _ _ Hk) as Hpos.
  eapply typing_counted; [exact HC|exact Hk|exact Hp|].
  intros E rec v1 s1 _ Hv1 Hmc Hst V.
  set (v2 := vset_last [] (vset_lcount 0 (vset_stack [MInsert] (vset_reset false (vset_lastins (Some k) v1))))).
  assert (Henter : okv (modk (vset_lastins (Some k)) ;;; set_mode E MInsert) v1 s1 (fun _ v' s' =>
    v' = v2 /\ view s' (start_undo_group b) c false)).
  { apply okv_modk. eapply okv_mono; [apply (okv_set_insert E _ _ _ _ _ V Hle)|]. intros ? v3 s3 [-> V3].
    split; [|exact V3]. unfold v2. cbn [v_stack vset_lastins]. rewrite Hst. reflexivity. }
  assert (Hcount : v_count v2 = 0%N /\ N.to_nat n = 1 \/ v_last v2 = [] /\ N.to_nat (v_count v2) = N.to_nat n /\ 0 < N.to_nat n).
  { change (v_count v2) with (v_count v1). rewrite Hv1. cbn [v_count vset_count].
    destruct Hk as [|d ds Hd Hz Hds]; [left; auto|right]. cbn [stored map].
    split; [reflexivity|]. split; [reflexivity|]. lia. }
  assert (Hrec := recording_start b).
  assert (Hplace : forall a r s', data b = a ++ r -> view s' (start_undo_group b) (length a) false ->
    exists g, at_place (actions b) (data b) g (a, r) v2 (set_hint None s') /\
    (v_count v2 = 0%N /\ N.to_nat n = 1 \/ v_last v2 = [] /\ N.to_nat (v_count v2) = N.to_nat n /\ 0 < N.to_nat n)).
  { intros a r s' Hd V'. exists false. split; [|exact Hcount]. exists (start_undo_group b).
    split; [|split; [exact Hd|exact Hrec]]. split; [reflexivity|]. split; [reflexivity|].
    split; [apply view_hint; exact V'|]. cbn [data start_undo_group fst]. rewrite Hd, app_length. lia. }
  destruct Hi; unfold kch, vi_normal; decide_okv.
  - eapply okv_mono; [exact Henter|]. intros ? v3 s3 [-> V3]. apply Hplace; [symmetry; apply firstn_skipn|].
    rewrite firstn_length_le by exact Hle. exact V3.
  - eapply okv_seq; [exact Henter|]. intros ? v3 s3 [-> V3]. apply okv_lift.
    eapply ok_mono; [apply (ok_move_right E 1 _ _ _ _ V3)|]. intros ? s4 [V4 _].
    cbn [data start_undo_group] in V4. rewrite clamp_false in V4 by lia.
    apply Hplace; [symmetry; apply firstn_skipn|]. rewrite firstn_length. exact V4.
  - eapply okv_seq; [exact Henter|]. intros ? v3 s3 [-> V3]. apply okv_lift.
    eapply ok_mono; [apply (ok_move_start E _ _ _ _ V3)|]. intros ? s4 [V4 _].
    apply Hplace; [reflexivity|exact V4].
  - eapply okv_seq; [exact Henter|]. intros ? v3 s3 [-> V3]. apply okv_lift.
    eapply ok_mono; [apply (ok_move_end E _ _ _ _ V3)|]. intros ? s4 [V4 _].
    cbn [data start_undo_group] in V4. rewrite clamp_false in V4 by lia.
    apply Hplace; [rewrite app_nil_r; reflexivity|exact V4].
  - eapply okv_seq; [exact Henter|]. intros ? v3 s3 [-> V3]. pose proof V3 as [_ [_ [Hc3 _]]].
    unfold mcr. apply okv_bind, okv_getk, okv_gete, okv_liftr. intros q Hq. apply okv_gete. rewrite Hc3.
    eapply okv_lands; [apply (ok_delete_until E _ _ _ _ _ V3)|].
    intros ? s4 [a [m [r [K1 [K2 [K3 [K4 _]]]]]]]. apply okv_modk1.
    destruct (view_line _ _ _ _ V3) as [bb [B1 B2]]. unfold move_count_right in Hq. rewrite B1 in Hq. cbn [rbind] in Hq.
    unfold sub_chk, num_chars in Hq. rewrite B2, Hc3 in Hq. cbn [data start_undo_group] in *.
    destruct (c <=? length (data b)) eqn:El; [|discriminate]. cbn [rbind] in Hq. injection Hq as <-.
    change (move_count v2) with (move_count v1) in *. rewrite Hmc in *.
    assert (Ha : a = firstn c (data b)) by (rewrite K1; symmetry; apply firstn_app_eq; lia).
    assert (Hr : r = skipn (c + N.to_nat n) (data b)).
    { assert (Hlen : length (data b) = length a + length m + length r) by (rewrite K1, !app_length; lia).
      destruct (le_lt_dec (c + N.to_nat n) (length (data b))) as [L|L].
      - rewrite K1, app_assoc. symmetry. apply skipn_app_eq. rewrite app_length. lia.
      - rewrite skipn_all2 by lia. destruct r; [reflexivity|]. cbn [length] in Hlen. lia. }
    rewrite <- Ha, <- Hr. exists true. split; [|left; auto]. exists (cut (start_undo_group b) a m r).
    split; [|split; [reflexivity|eapply recording_cut; [exact Hrec|exact K1]]].
    split; [reflexivity|]. split; [reflexivity|]. cbn [fst data cut].
    rewrite clamp_false in K4 by (rewrite app_length; lia). split; [apply view_hint; exact K4|rewrite app_length; lia].
  - apply okv_modk. unfold set_mode_preserve_last. apply okv_bind, okv_mod_ed, okv_modk.
    eapply okv_seq; [eapply okv_set_editor_mode; [right; reflexivity|eapply view_noeol; exact V]|].
    intros ? v3 s3 [-> V3]. cbn [is_insert is_tilde is_normal orb when negb] in *. rewrite clamp_false in V3 by exact Hle.
    apply okv_lift. eapply ok_mono; [apply (ok_mut _ _ _ _ _ V3)|]. intros ? s4 [b4 [Hb4 [V4 _]]].
    unfold pure_op in Hb4. injection Hb4 as _ <-. apply okv_lift.
    eapply ok_mono; [apply (ok_delete_all_after E _ _ _ _ V4)|]. intros ? s5 [p0 [m [K1 [K2 [K3 _]]]]].
    cbn [data start_undo_group] in K1. rewrite clamp_false in K3 by lia.
    assert (Ha : p0 = firstn c (data b)) by (rewrite K1; symmetry; apply firstn_app_eq; symmetry; exact K2). rewrite <- Ha.
    exists true. split; [|left; auto]. exists (cut (start_undo_group b) p0 m []).
    split; [|split; [reflexivity|eapply recording_cut; [exact Hrec|rewrite app_nil_r; exact K1]]].
    split; [cbn; rewrite Hst; reflexivity|]. split; [reflexivity|]. cbn [fst data cut].
    rewrite K2, app_nil_r, K2. split; [apply view_hint; exact K3|lia].
Qed.

(** A command that enters insert mode, the keys typed there, Esc. *)
Lemma typing_insertion : forall P ks n k z times tk v s b c, calm v s b c -> count ks n ->
  insert_at (data b) c n k z times -> Forall typed tk ->
  typing P (ks ++ k :: tk ++ [KEsc]) v s (fun v' s' => exists g,
    left_insert (actions b) (data b) g (type_times times tk z) v' s' /\ (existsb real_char tk = true -> g = true)).
Proof.
  intros P ks n k z times tk v s b c HC Hk Hi Ht.
  change (ks ++ k :: tk ++ [KEsc]) with (ks ++ [k] ++ (tk ++ [KEsc])). rewrite app_assoc. apply typing_app.
  eapply typing_mono; [eapply typing_enter; [exact HC|exact Hk|exact Hi]|]. intros v1 s1 [g [P1 C1]].
  apply typing_app. eapply typing_mono; [eapply typing_typed; [exact Ht|exact P1]|]. intros v2 s2 [-> P2].
  eapply typing_mono; [eapply (typing_esc P tk times); [exact Ht|exact P2|]|].
  - destruct C1 as [C1|[C1 C2]]; [left; exact C1|right]. split; [|exact C2]. cbn [v_last vset_last]. rewrite C1. reflexivity.
  - intros v3 s3 H. exists (g || existsb real_char tk). split; [exact H|]. intros ->. apply orb_true_r.
Qed.
(** The same for [c] and what follows it. *)
Lemma typing_change : forall P ck i j tk v s b c, calm v s b c -> Forall typed tk ->
  typing P ck v s (went Chg b i j) ->
  typing P (ck ++ tk ++ [KEsc]) v s (fun v' s' => i <= j /\ j <= length (data b) /\
    left_insert (actions b) (data b) true (type_on tk (firstn i (data b), skipn j (data b))) v' s').
Proof.
  intros P ck i j tk v s b c HC Ht Hw. apply typing_app. eapply typing_mono; [exact Hw|].
  intros v1 s1 [a [m [r [H1 [H2 [H3 [H4 [I1 [I2 [I3 I4]]]]]]]]]].
  assert (F : firstn i (data b) = a) by (rewrite H1; apply firstn_app_eq; lia).
  assert (K : skipn j (data b) = r).
  { rewrite H1, app_assoc. apply skipn_app_eq. rewrite app_length. lia. }
  rewrite F, K.
  assert (P1 : at_place (actions b) (data b) true (a, r) v1 s1).
  { exists (cut (start_undo_group b) a m r). split; [|split; [reflexivity|]].
    - cbn [fst]. rewrite H2. split; [exact I1|]. split; [exact I2|]. split; [exact I3|exact I4].
    - eapply recording_cut; [apply recording_start|exact H1]. }
  apply typing_app. eapply typing_mono; [eapply typing_typed; [exact Ht|exact P1]|]. intros v2 s2 [-> P2].
  eapply typing_mono; [eapply (typing_esc P tk 1 _ _ _ (a, r)); [exact Ht|exact P2|left; split; [exact H4|reflexivity]]|].
  intros v3 s3 H. split; [lia|]. split; [rewrite H1, !app_length; lia|]. exact H.
Qed.
Lemma typing_left_undo : forall P acts d0 z v s, left_insert acts d0 true z v s ->
  typing P [kch "u"] v s (fun v' s' => exists u, calm v' s' (mkBuf d0 acts u) (length d0 - 1)).
Proof.
  intros P acts d0 z v s [b [HC [Hd Hr]]]. destruct (recording_undo _ _ _ Hr) as [u Hu].
  eapply typing_mono; [eapply typing_u; [exact HC|exact Hu]|]. intros v1 s1 H. exists u. exact H.
Qed.

(** * Sessions *)

Lemma left_ready : forall v s l v' s' acts d0 g z, vi_session v s ->
  run_keys vi_core l (v, s) = ORet false (v', s') -> left_insert acts d0 g z v' s' ->
  ready v' s' (fst z ++ snd z) (length (fst z) - 1).
Proof.
  intros v s l v' s' acts d0 g z Hs Hr [b [HC [Hd _]]].
  pose proof (calm_ready _ _ _ _ _ _ _ Hs Hr HC) as H. cbn [data end_undo_group] in H. rewrite Hd in H. exact H.
Qed.

Lemma vi_insertion : forall v s t c ks n k z times tk l d v' s',
  ready v s t c -> count ks n -> insert_at t c n k z times -> Forall typed tk ->
  map snd l = ks ++ k :: tk ++ [KEsc] -> run_keys vi_core l (v, s) = ORet d (v', s') ->
  d = false /\ let '(a, r) := type_times times tk z in ready v' s' (a ++ r) (length a - 1).
Proof.
  intros v s t c ks n k z times tk l d v' s' Hr Hk Hi Ht Hl H.
  destruct (ready_typing v s t c any (map snd l) l d v' s' (fun b v' s' => exists g,
    left_insert (actions b) (data b) g (type_times times tk z) v' s' /\ (existsb real_char tk = true -> g = true)) Hr)
    as [-> [b [<- [[g [Hg _]] HC]]]]; [|reflexivity|apply any_all|exact H|].
  - intros b Hb HC. rewrite Hl. subst t. eapply typing_insertion; eauto.
  - split; [reflexivity|]. pose proof (left_ready _ _ _ _ _ _ _ _ _ (proj1 Hr) H Hg) as K.
    destruct (type_times times tk z). exact K.
Qed.
Lemma vi_insertion_undo : forall v s t c ks n k z times tk l d v' s',
  ready v s t c -> count ks n -> insert_at t c n k z times -> Forall typed tk -> (exists x, In (KChar x) tk) ->
  map snd l = ks ++ k :: tk ++ [KEsc; kch "u"] -> run_keys vi_core l (v, s) = ORet d (v', s') ->
  d = false /\ ready v' s' t (length t - 1).
Proof.
  intros v s t c ks n k z times tk l d v' s' Hr Hk Hi Ht [x Hx] Hl H.
  destruct (ready_typing v s t c any (map snd l) l d v' s' (fun b v' s' =>
    exists u, calm v' s' (mkBuf (data b) (actions b) u) (length (data b) - 1)) Hr)
    as [-> [b [<- [[u Hg] HC]]]]; [|reflexivity|apply any_all|exact H|].
  - intros b Hb HC. rewrite Hl. subst t.
    replace (ks ++ k :: tk ++ [KEsc; kch "u"]) with ((ks ++ k :: tk ++ [KEsc]) ++ [kch "u"])
      by (rewrite <- app_assoc; cbn; rewrite <- app_assoc; reflexivity).
    apply typing_app. eapply typing_mono; [eapply typing_insertion; eauto|].
    intros v1 s1 [g [H1 H2]]. rewrite H2 in H1; [eapply typing_left_undo; exact H1|].
    apply existsb_exists. exists (KChar x). split; [exact Hx|reflexivity].
  - split; [reflexivity|]. exact (calm_ready _ _ _ _ _ _ _ (proj1 Hr) H Hg).
Qed.
Lemma typing_any : forall (P : env -> Prop) ks v s Q, typing any ks v s Q -> typing P ks v s Q.
Proof. intros P ks v s Q H l Hl _. apply (H l Hl). apply any_all. Qed.
Lemma typing_changed : forall U ck i j v s b c, calm v s b c -> change_keys U (data b) c ck i j ->
  typing (fun E => e_uni E = U) ck v s (went Chg b i j).
Proof.
  intros U ck i j v s b c HC Hc.
  destruct Hc as [ks1 n1 ks2 n2 H1 H2|ks1 n1 ks2 n2 mk i j H1 H2 H3 H4 H5|ks1 n1 ks2 n2 mk i j H1 H2 H3 H4].
  - apply (typing_line Chg _ ks1 n1 ks2 n2 v s b c HC H1 H2).
  - apply (typing_delete_span Chg _ ks1 n1 ks2 n2 mk i j v s b c HC H1 H2 H3 H4 H5).
  - apply (typing_delete_wspan Chg U ks1 n1 ks2 n2 mk i j v s b c HC H1 H2 H3 H4).
Qed.
Lemma vi_change : forall U v s t c ck i j tk l d v' s',
  ready v s t c -> change_keys U t c ck i j -> Forall typed tk ->
  map snd l = ck ++ tk ++ [KEsc] -> Forall (fun x => e_uni (fst x) = U) l ->
  run_keys vi_core l (v, s) = ORet d (v', s') ->
  d = false /\ i <= j /\ j <= length t /\
  let '(a, r) := type_on tk (firstn i t, skipn j t) in ready v' s' (a ++ r) (length a - 1).
Proof.
  intros U v s t c ck i j tk l d v' s' Hr Hk Ht Hl HU H.
  destruct (ready_typing v s t c (fun E => e_uni E = U) (map snd l) l d v' s' (fun b v' s' =>
    i <= j /\ j <= length (data b) /\
    left_insert (actions b) (data b) true (type_on tk (firstn i (data b), skipn j (data b))) v' s') Hr)
    as [-> [b [<- [[H1 [H2 Hg]] HC]]]]; [|reflexivity|exact HU|exact H|].
  - intros b Hb HC. rewrite Hl. subst t. eapply typing_change; [exact HC|exact Ht|]. eapply typing_changed; eauto.
  - split; [reflexivity|]. split; [exact H1|]. split; [exact H2|].
    pose proof (left_ready _ _ _ _ _ _ _ _ _ (proj1 Hr) H Hg) as K.
    destruct (type_on tk _). exact K.
Qed.
Lemma vi_change_undo : forall U v s t c ck i j tk l d v' s',
  ready v s t c -> change_keys U t c ck i j -> Forall typed tk ->
  map snd l = ck ++ tk ++ [KEsc; kch "u"] -> Forall (fun x => e_uni (fst x) = U) l ->
  run_keys vi_core l (v, s) = ORet d (v', s') ->
  d = false /\ ready v' s' t (length t - 1).
Proof.
  intros U v s t c ck i j tk l d v' s' Hr Hk Ht Hl HU H.
  destruct (ready_typing v s t c (fun E => e_uni E = U) (map snd l) l d v' s' (fun b v' s' =>
    exists u, calm v' s' (mkBuf (data b) (actions b) u) (length (data b) - 1)) Hr)
    as [-> [b [<- [[u Hg] HC]]]]; [|reflexivity|exact HU|exact H|].
  - intros b Hb HC. rewrite Hl. subst t.
    replace (ck ++ tk ++ [KEsc; kch "u"]) with ((ck ++ tk ++ [KEsc]) ++ [kch "u"])
      by (rewrite <- !app_assoc; reflexivity).
    apply typing_app. eapply typing_mono.
    + eapply typing_change; [exact HC|exact Ht|]. eapply typing_changed; eauto.
    + intros v1 s1 [_ [_ H1]]. eapply typing_left_undo. exact H1.
  - split; [reflexivity|]. exact (calm_ready _ _ _ _ _ _ _ (proj1 Hr) H Hg).
Qed.

(** * Undoing deletions *)
Lemma undo_cut : forall b a m r, data b = a ++ m ++ r ->
  exists u, buf_undo (cut b a m r) = Val (true, mkBuf (data b) (actions b) u).
Proof.
  intros b a m r H. eexists.
  assert (He : is_edit (ARemove (length a) m)) by (split; discriminate).
  assert (Hp : past (data b) (rev [ARemove (length a) m]) (a ++ r)).
  { cbn [rev app]. econstructor; [constructor|]. rewrite H. constructor. }
  exact (undo_shape _ (sh_edit _ He) (actions b) [] (data b) (a ++ r) Hp).
Qed.
Lemma typing_gone_undo : forall P b i j v s, gone b i j v s ->
  typing P [kch "u"] v s (fun v' s' => exists u, calm v' s' (mkBuf (data b) (actions b) u) (length (data b) - 1)).
Proof.
  intros P b i j v s [a [m [r [H1 [_ [_ HC]]]]]]. destruct (undo_cut b a m r H1) as [u Hu].
  eapply typing_mono; [eapply typing_u; [exact HC|exact Hu]|]. intros v1 s1 H. exists u. exact H.
Qed.
Lemma typing_deletion : forall U dk v s b c, calm v s b c -> deletion U (data b) c dk ->
  exists i j, typing (fun E => e_uni E = U) dk v s (gone b i j).
Proof.
  intros U dk v s b c HC Hd.
  destruct Hd as [ks n k H1 H2|ks n H1|ks1 n1 ks2 n2 H1 H2|ks1 n1 ks2 n2 mk i j H1 H2 H3 H4 H5|ks1 n1 ks2 n2 mk i j H1 H2 H3 H4]; do 2 eexists.
  - eapply typing_x; eauto.
  - eapply typing_D; eauto.
  - apply (typing_line Del _ ks1 n1 ks2 n2 v s b c HC H1 H2).
  - apply (typing_delete_span Del _ ks1 n1 ks2 n2 mk i j v s b c HC H1 H2 H3 H4 H5).
  - apply (typing_delete_wspan Del U ks1 n1 ks2 n2 mk i j v s b c HC H1 H2 H3 H4).
Qed.
Lemma vi_deletion_undo : forall U v s t c dk l d v' s',
  ready v s t c -> deletion U t c dk ->
  map snd l = dk ++ [kch "u"] -> Forall (fun x => e_uni (fst x) = U) l ->
  run_keys vi_core l (v, s) = ORet d (v', s') ->
  d = false /\ ready v' s' t (length t - 1).
Proof.
  intros U v s t c dk l d v' s' Hr Hk Hl HU H.
  destruct (ready_typing v s t c (fun E => e_uni E = U) (map snd l) l d v' s' (fun b v' s' =>
    exists u, calm v' s' (mkBuf (data b) (actions b) u) (length (data b) - 1)) Hr)
    as [-> [b [<- [[u Hg] HC]]]]; [|reflexivity|exact HU|exact H|].
  - intros b Hb HC. rewrite Hl. subst t. destruct (typing_deletion U dk v s b c HC Hk) as [i [j Ht]].
    apply typing_app. eapply typing_mono; [exact Ht|]. intros v1 s1 Hg. eapply typing_gone_undo. exact Hg.
  - split; [reflexivity|]. exact (calm_ready _ _ _ _ _ _ _ (proj1 Hr) H Hg).
Qed.
