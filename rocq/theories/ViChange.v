(** The Vi commands [r], [~] and counted [u]. *)
From Verif Require Import Base Utf8 BufferModel UtilModel HistoryModel EditorState EditorModel
  KeymapModel ViModel MonadLemmas EditorLemmas CursorProofs Lemmas BufferProofs EditorSpec EditorProofs
  EditorOps Tests Samples ViSpec ViEffects ViModes ViRepeat ViMotion ViKeys ViCommands ViInsert ViChangeSpec.
Local Open Scope monad_scope.

Lemma okv_mcr : forall {A} (k : nat -> MV A) v s b c e Q, view s b c e -> c <= length (data b) ->
  okv (k (N.to_nat (N.min (N.of_nat (length (data b) - c)) (move_count v)))) v s Q -> okv (bind mcr k) v s Q.
Proof.
  intros A k v s b c e Q V Hc H. unfold mcr. apply okv_bind, okv_getk, okv_gete, okv_liftr. intros q Hq.
  pose proof V as [_ [_ [Hc3 _]]]. destruct (view_line _ _ _ _ V) as [bb [B1 B2]]. unfold move_count_right in Hq.
  rewrite B1 in Hq. cbn [rbind] in Hq. unfold sub_chk, num_chars in Hq. rewrite B2, Hc3 in Hq.
  assert (c <=? length (data b) = true) as El by (apply Nat.leb_le; exact Hc). rewrite El in Hq.
  cbn [rbind] in Hq. injection Hq as <-. exact H.
Qed.

(** A loop that does not look at the index. *)
Lemma okv_mfor : forall (I : nat -> vi -> ed -> Prop) (body : MV unit) {X} (l : list X) i v s,
  (forall j v s, i <= j < i + length l -> I j v s -> okv body v s (fun _ v' s' => I (S j) v' s')) ->
  I i v s -> okv (mfor l (fun _ => body)) v s (fun _ v' s' => I (i + length l) v' s').
Proof.
  intros I body X l. induction l as [|x l IH]; intros i v s Hb Hi; cbn [mfor length].
  - apply okv_ret. rewrite Nat.add_0_r. exact Hi.
  - eapply okv_seq; [apply (Hb i v s); [cbn [length]; lia|exact Hi]|]. intros ? v1 s1 H1. cbv beta in H1.
    replace (i + S (length l)) with (S i + length l) by lia. apply IH; [|exact H1].
    intros j v2 s2 Hj. apply Hb. cbn [length]. lia.
Qed.

Lemma okv_buf_mut : forall {A} (f : buffer -> buffer) (k : unit -> MV A) v s b c e Q, view s b c e ->
  (forall s', view s' (f b) c e -> okv (k tt) v s' Q) -> okv (bind (buf_mut f) k) v s Q.
Proof.
  intros A f k v s b c e Q V H. unfold buf_mut. eapply okv_lands; [apply (ok_mut _ _ _ _ _ V)|].
  intros [] s' [b' [Hb [V' _]]]. unfold pure_op in Hb. injection Hb as <-. apply H. exact V'.
Qed.

Lemma skipn_cons : forall (t : text) c, c < length t -> exists y, skipn c t = y :: skipn (S c) t.
Proof.
  induction t as [|x t IH]; intros c H; cbn [length] in H; [lia|]. destruct c as [|c]; [exists x; reflexivity|].
  cbn [skipn]. apply IH. lia.
Qed.

(** * [r] *)

(** The record [.] works from. *)
Definition notes (v : vi) (ins : option key) (ks : list key) (n : N) : Prop :=
  v_lastins v = ins /\ v_last v = ks /\ v_lcount v = n.

Lemma okv_pop_quiet : forall E m v s b c, v_stack v = [m] -> quiet m -> view s b c false ->
  okv (pop_mode E) v s (fun _ v' s' => v' = vset_reset true (vset_stack [] v) /\
    view s' b (clamp_cursor true (length (data b)) c) true).
Proof.
  intros E m v s b c Hst Hm V. unfold pop_mode. apply okv_getk.
  assert (vpop v = (m, vset_stack [] v)) as -> by (unfold vpop; rewrite Hst; reflexivity).
  cbv iota beta zeta. apply okv_modk, okv_mod_ed.
  assert (is_insert m || is_tilde m = false /\ is_tilde m = false) as [-> ->] by (destruct m; try contradiction; auto).
  cbn [when]. apply okv_bind, okv_ret, okv_bind, okv_ret.
  eapply okv_mono; [eapply okv_set_editor_mode; [left; reflexivity|eapply view_noeol; exact V]|].
  intros ? v' s' [-> H]. split; [reflexivity|exact H].
Qed.

(** The buffer after overwriting, inside the group that was opened. *)
Definition overwritten (b : buffer) (c : nat) (x : char) (n : nat) (b' : buffer) : Prop :=
  data b' = firstn c (data b) ++ repeat x n ++ skipn (c + n) (data b) /\
  recording (actions b) (data b) (0 <? n) b'.

Lemma okv_overwrite : forall E x b c n i v s, c + S i <= length (data b) ->
  (exists b', overwritten b c x i b' /\ view s b' (c + i) false /\ v = n) ->
  okv (lift (delete_after_cursor E) ;;; lift (insert_after_cursor E x)) v s (fun _ v' s' =>
    exists b', overwritten b c x (S i) b' /\ view s' b' (c + S i) false /\ v' = n).
Proof.
  intros E x b c n i v s Hi [b' [[D R] [V ->]]].
  assert (Hf : length (firstn c (data b)) = c) by (apply firstn_length_le; lia).
  destruct (skipn_cons (data b) (c + i) ltac:(lia)) as [y Hy].
  assert (D' : data b' = (firstn c (data b) ++ repeat x i) ++ [y] ++ skipn (S (c + i)) (data b)).
  { rewrite D, Hy, app_assoc. reflexivity. }
  assert (Hl : length (firstn c (data b) ++ repeat x i) = c + i) by (rewrite app_length, repeat_length; lia).
  eapply okv_lands; [apply (ok_delete_after E _ _ _ _ V)|].
  intros ? s1 [[H0 _]|[a [z [r [H1 [H2 [V1 _]]]]]]].
  - rewrite D', !app_length in H0. cbn [length] in H0. rewrite app_length in Hl. lia.
  - assert (H3 : a = firstn c (data b) ++ repeat x i /\ [z] ++ r = [y] ++ skipn (S (c + i)) (data b)).
    { rewrite D' in H1. symmetry in H1. apply app_eq_length in H1; [exact H1|]. lia. }
    destruct H3 as [-> H3]. injection H3 as -> ->.
    rewrite clamp_false in V1 by (rewrite app_length; lia).
    apply okv_lift. unfold insert_after_cursor.
    eapply ok_mono; [apply (ok_insert E [x] _ _ _ _ _ _ V1 eq_refl Hl)|]. intros ? s2 [V2 _].
    rewrite clamp_false in V2 by (rewrite !app_length; lia).
    exists (put (cut b' (firstn c (data b) ++ repeat x i) [y] (skipn (S (c + i)) (data b)))
      (firstn c (data b) ++ repeat x i) [x] (skipn (S (c + i)) (data b))).
    split; [|split; [replace (c + S i) with (length ((firstn c (data b) ++ repeat x i) ++ [x])); [exact V2|]|reflexivity]].
    + split.
      * cbn [data put]. rewrite <- app_assoc. f_equal. replace (S i) with (i + 1) by lia.
        rewrite repeat_app. cbn [repeat]. replace (c + (i + 1)) with (S (c + i)) by lia. symmetry. apply app_assoc_reverse.
      * cbn [Nat.ltb Nat.leb]. eapply recording_put; [|reflexivity]. eapply recording_cut; [exact R|exact D'].
    + rewrite app_length, Hl. cbn [length]. lia.
Qed.

Lemma okv_replace : forall E x v s b c, v_stack v = [MReplace] -> view s b c false -> c <= length (data b) ->
  okv (vi_replace E (KChar x)) v s (fun _ v' s' => v_stack v' = [] /\ v_count v' = 0%N /\
    ((N.of_nat (length (data b) - c) < move_count v)%N /\ view s' b (clamp_cursor true (length (data b)) c) true /\
       notes v' (v_lastins v) (v_last v) (v_lcount v) \/
     (move_count v <= N.of_nat (length (data b) - c))%N /\
       notes v' None [kch "r"; KChar x] (v_count v) /\
       exists b', overwritten b c x (N.to_nat (move_count v)) b' /\
         view s' (end_undo_group b') (c + N.to_nat (move_count v) - 1) true)).
Proof.
  intros E x v s b c Hst V Hc. unfold vi_replace. apply okv_bind.
  eapply okv_mcr; [exact V|exact Hc|]. apply okv_getk. rewrite N2Nat.id.
  destruct (N.min (N.of_nat (length (data b) - c)) (move_count v) =? move_count v)%N eqn:En.
  - apply N.eqb_eq in En. assert (Hn : (move_count v <= N.of_nat (length (data b) - c))%N) by lia. cbn [when].
    apply okv_bind, okv_modk. eapply okv_buf_mut; [exact V|]. intros s1 V1.
    eapply okv_mcr; [exact V1|exact Hc|].
    match goal with |- context [move_count (vset_lcount ?a ?w)] =>
      change (move_count (vset_lcount a w)) with (move_count v); set (v1 := vset_lcount a w) end.
    cbn [data start_undo_group]. rewrite En.
    set (n := N.to_nat (move_count v)).
    assert (Hpos : 0 < n).
    { unfold n, move_count. destruct (v_count v =? 0)%N eqn:E0; [exact Nat.lt_0_1|apply N.eqb_neq in E0; clear - E0; lia]. }
    eapply okv_seq; [apply (okv_mfor (fun i v s => exists b', overwritten b c x i b' /\ view s b' (c + i) false /\ v = v1) _ _ 0)|].
    + intros i v2 s2 Hi. rewrite seq_length in Hi. apply okv_overwrite. lia.
    + exists (start_undo_group b). split; [split|split; [rewrite Nat.add_0_r; exact V1|reflexivity]].
      * cbn [repeat app data start_undo_group]. rewrite Nat.add_0_r, firstn_skipn. reflexivity.
      * apply recording_start.
    + rewrite seq_length. cbn [Nat.add]. intros ? v2 s2 [b' [O [V2 ->]]].
      eapply okv_buf_mut; [exact V2|]. intros s3 V3.
      apply okv_lift. eapply ok_mono; [apply (ok_move_left E 1 _ _ _ _ V3)|]. intros ? s4 [V4 _].
      assert (Hlen : length (data b') = length (data b)).
      { rewrite (proj1 O), !app_length, repeat_length, firstn_length, skipn_length. lia. }
      cbn [data end_undo_group] in V4. rewrite clamp_false in V4 by lia.
      eapply okv_mono; [eapply okv_pop_quiet; [exact Hst|exact I|exact V4]|]. intros ? v5 s5 [-> V5].
      apply okv_modk1. split; [reflexivity|]. split; [reflexivity|]. right. split; [exact Hn|].
      split; [repeat split|]. exists b'. split; [exact O|]. cbn [data end_undo_group] in V5.
      rewrite clamp_in in V5 by lia. exact V5.
  - apply N.eqb_neq in En. cbn [when]. apply okv_bind, okv_ret.
    eapply okv_mono; [eapply okv_pop_quiet; [exact Hst|exact I|exact V]|]. intros ? v1 s1 [-> V1].
    apply okv_modk1. split; [reflexivity|]. split; [reflexivity|]. left. split; [lia|]. split; [exact V1|].
    repeat split.
Qed.

Lemma okv_abort : forall E v s b c e, view s b c e ->
  okv (normal_mode_abort E) v s (fun _ v' s' => v' = vset_count 0 (vset_stack [] v) /\
    view s' b (clamp_cursor true (length (data b)) c) true).
Proof.
  intros E v s b c e V. unfold normal_mode_abort. apply okv_modk, okv_mod_ed.
  eapply okv_mono; [eapply okv_set_editor_mode; [left; reflexivity|eapply view_noeol; exact V]|].
  intros ? v' s' [-> H]. split; [reflexivity|exact H].
Qed.

(** What [r] leaves behind. *)
Definition replaced (v0 : vi) (b : buffer) (c : nat) (x : char) (n k : N) (v : vi) (s : ed) : Prop :=
  (N.of_nat (length (data b) - c) < n)%N /\ calm v s b c /\ notes v (v_lastins v0) (v_last v0) (v_lcount v0) \/
  (n <= N.of_nat (length (data b) - c))%N /\ notes v None [kch "r"; KChar x] k /\
    exists b', overwritten b c x (N.to_nat n) b' /\ calm v s (end_undo_group b') (c + N.to_nat n - 1).

Lemma overwritten_length : forall b c x n b', c + n <= length (data b) -> overwritten b c x n b' ->
  length (data b') = length (data b).
Proof.
  intros b c x n b' Hl [D _]. rewrite D, !app_length, repeat_length, firstn_length, skipn_length. lia.
Qed.
Lemma okv_replaced : forall E x v s b c n, v_stack v = [MReplace] -> view s b c false ->
  (c < length (data b) \/ data b = [] /\ c = 0) -> move_count v = n ->
  okv (vi_replace E (KChar x)) v s (fun _ v' s' => replaced v b c x n (v_count v) v' (set_hint None s')).
Proof.
  intros E x v s b c n Hst V Hc <-. eapply okv_mono; [apply (okv_replace E x v s b c Hst V (in_line _ _ Hc))|].
  assert (Hpos : 0 < N.to_nat (move_count v)).
  { unfold move_count. destruct (v_count v =? 0)%N eqn:E0; [exact Nat.lt_0_1|apply N.eqb_neq in E0; clear - E0; lia]. }
  pose proof (in_line _ _ Hc) as Hle.
  intros ? v' s' [H1 [H2 [[H3 [H4 H5]]|[H3 [H4 [b' [H5 H6]]]]]]].
  - left. split; [exact H3|]. rewrite clamp_calm in H4 by exact Hc. split; [|exact H5].
    split; [exact H1|]. split; [exact H2|]. split; [apply view_hint; exact H4|exact Hc].
  - right. split; [exact H3|]. split; [exact H4|]. exists b'. split; [exact H5|].
    split; [exact H1|]. split; [exact H2|]. split; [apply view_hint; exact H6|].
    left. cbn [data end_undo_group]. rewrite (overwritten_length b c x (N.to_nat (move_count v)) b'); [lia|lia|exact H5].
Qed.

Lemma typing_r : forall P ks n x v s b c, calm v s b c -> count ks n -> x <> c_tab -> x <> c_nl ->
  typing P (ks ++ [kch "r"; KChar x]) v s (replaced v b c x n (stored ks n)).
Proof.
  intros P ks n x v s b c HC Hk N1 N2. change [kch "r"; KChar x] with ([kch "r"] ++ [KChar x]).
  rewrite app_assoc. apply typing_app. eapply typing_counted; [exact HC|exact Hk|split; discriminate|].
  intros E rec v1 s1 _ Hv1 Hmc Hst V. unfold kch, vi_normal. decide_okv. apply okv_set_mode; [exact I|].
  apply typing_cons; [split; assumption|]. intros E' _. apply okv_core. intro rec'.
  cbn [vmode_of v_stack vset_stack]. eapply okv_mono.
  - eapply (okv_replaced E' x _ _ b c n); [cbn; rewrite Hst; reflexivity|apply view_hint; eapply view_noeol; exact V|apply HC|exact Hmc].
  - intros ? v' s' H. apply typing_nil. subst v1. exact H.
Qed.
Lemma typing_r_cancel : forall P ks n k v s b c, calm v s b c -> count ks n -> In k [KEsc; KBackspace; KDelete] ->
  typing P (ks ++ [kch "r"; k]) v s (fun v' s' => calm v' s' b c).
Proof.
  intros P ks n k v s b c HC Hk Hi. change [kch "r"; k] with ([kch "r"] ++ [k]).
  assert (Hp : passes k) by (cbn [In] in Hi; intuition subst; exact I).
  rewrite app_assoc. apply typing_app. eapply typing_counted; [exact HC|exact Hk|split; discriminate|].
  intros E rec v1 s1 _ Hv1 Hmc Hst V. unfold kch, vi_normal. decide_okv. apply okv_set_mode; [exact I|].
  apply typing_cons; [exact Hp|]. intros E' _. apply okv_core. intro rec'.
  cbn [vmode_of v_stack vset_stack]. unfold vi_replace. apply okv_bind.
  assert (Ha : forall v s, view s b c false -> okv (normal_mode_abort E') v s (fun _ v' s' => okv (modk (vset_count 0)) v' s'
    (fun _ v'0 s'0 => typing P [] v'0 (set_hint None s'0) (fun v'1 s'1 => calm v'1 s'1 b c)))).
  { intros v2 s2 V2. eapply okv_mono; [apply (okv_abort E' _ _ _ _ _ V2)|]. intros ? v3 s3 [-> V3].
    apply okv_modk1. apply typing_nil. rewrite clamp_calm in V3 by apply HC.
    split; [reflexivity|]. split; [reflexivity|]. split; [apply view_hint; exact V3|apply HC]. }
  cbn [In] in Hi. destruct Hi as [<-|[<-|[<-|[]]]]; apply Ha; apply view_hint; eapply view_noeol; exact V.
Qed.

(** * [~] *)

Lemma okv_unwrap : forall {A} (m : MV A) v s Q, okv m v s Q ->
  okv (fun st => match m st with OErr _ _ => OPanic PUnwrap | o => o end) v s Q.
Proof. intros A m v s Q H. unfold okv in *. destruct (m (v, s)) as [a [v' s']| | |]; auto. Qed.

(** Putting in several characters one after the other. *)
Lemma okv_put_all : forall E l acts d0 g a r v0 v s b,
  view s b (length a) false -> data b = a ++ r -> recording acts d0 g b -> v = v0 ->
  okv (mfor l (fun x => lift (insert_after_cursor E x))) v s (fun _ v' s' => exists b',
    view s' b' (length (a ++ l)) false /\ data b' = (a ++ l) ++ r /\ recording acts d0 g b' /\ v' = v0).
Proof.
  intros E l acts d0 g. induction l as [|x l IH]; intros a r v0 v s b V D R ->; cbn [mfor].
  - apply okv_ret. exists b. rewrite app_nil_r. auto.
  - eapply okv_lands; [unfold insert_after_cursor; apply (ok_insert E [x] _ _ _ _ a r V D eq_refl)|].
    intros ? s1 [V1 _]. rewrite clamp_false in V1 by (rewrite !app_length; lia).
    replace (a ++ x :: l) with ((a ++ [x]) ++ l) by (rewrite <- app_assoc; reflexivity).
    eapply IH; [exact V1| | |reflexivity].
    + cbn [data put]. rewrite <- app_assoc. reflexivity.
    + eapply recording_weak; [eapply recording_put; eauto|]. auto.
Qed.

Definition letter (U : unicode) (x : char) : bool := u_lower U x || u_upper U x.

(** The first [i] characters from [c] on were changed. *)
Definition swapped (U : unicode) (b : buffer) (c i : nat) (b' : buffer) : Prop :=
  data b' = (firstn c (data b) ++ flat_map (swap_case U) (firstn i (skipn c (data b)))) ++ skipn (c + i) (data b) /\
  recording (actions b) (data b) (existsb (letter U) (firstn i (skipn c (data b)))) b'.
Definition swap_end (U : unicode) (t : text) (c i : nat) : nat :=
  c + length (flat_map (swap_case U) (firstn i (skipn c t))).

Lemma firstn_snoc : forall (t : text) i y, nth_error t i = Some y -> firstn (S i) t = firstn i t ++ [y].
Proof.
  induction t as [|x t IH]; intros [|i] y H; try discriminate.
  - injection H as ->. reflexivity.
  - cbn [firstn app]. f_equal. apply IH. exact H.
Qed.
Lemma skipn_nth : forall (t : text) c i, nth_error (skipn c t) i = nth_error t (c + i).
Proof. induction t as [|x t IH]; intros [|c] i; cbn; try reflexivity; [destruct i; reflexivity|apply IH]. Qed.
Lemma nth_in : forall (t : text) i, i < length t -> exists y, nth_error t i = Some y /\ skipn i t = y :: skipn (S i) t.
Proof.
  induction t as [|x t IH]; intros i H; cbn [length] in H; [lia|]. destruct i as [|i]; [exists x; auto|].
  destruct (IH i ltac:(lia)) as [y [H1 H2]]. exists y. auto.
Qed.

Lemma okv_tilde_step : forall E b c v0 i v s, c + S i <= length (data b) ->
  (exists b', swapped (e_uni E) b c i b' /\ view s b' (swap_end (e_uni E) (data b) c i) false /\ v = v0) ->
  okv (tilde_step E) v s (fun _ v' s' =>
    exists b', swapped (e_uni E) b c (S i) b' /\ view s' b' (swap_end (e_uni E) (data b) c (S i)) false /\ v' = v0).
Proof.
  intros E b c v0 i v s Hi [b' [[D R] [V ->]]]. unfold tilde_step. apply okv_gete.
  eapply okv_lands; [apply (ok_get_cur _ _ _ _ V)|]. intros y s1 [-> Hy].
  set (a := firstn c (data b) ++ flat_map (swap_case (e_uni E)) (firstn i (skipn c (data b)))) in *.
  assert (Ha : length a = swap_end (e_uni E) (data b) c i).
  { unfold a, swap_end. rewrite app_length, firstn_length_le by lia. reflexivity. }
  rewrite <- Ha in V.
  destruct (nth_in (data b) (c + i) ltac:(lia)) as [z [Hz Hk]].
  pose proof V as [_ [_ [Hc _]]].
  assert (char_after y (ed_cursor s) = Some z) as ->.
  { unfold char_after. rewrite Hy, Hc, D, Hk. rewrite nth_error_app2 by lia. rewrite Nat.sub_diag. reflexivity. }
  rewrite Hk in D.
  assert (Hnext : firstn (S i) (skipn c (data b)) = firstn i (skipn c (data b)) ++ [z]).
  { apply firstn_snoc. rewrite skipn_nth. exact Hz. }
  assert (Hflat : flat_map (swap_case (e_uni E)) (firstn (S i) (skipn c (data b))) =
    flat_map (swap_case (e_uni E)) (firstn i (skipn c (data b))) ++ swap_case (e_uni E) z).
  { rewrite Hnext, flat_map_app. cbn [flat_map]. rewrite app_nil_r. reflexivity. }
  assert (Hend : swap_end (e_uni E) (data b) c (S i) = length (a ++ swap_case (e_uni E) z)).
  { unfold swap_end. rewrite Hflat, !app_length, Ha. unfold swap_end. lia. }
  assert (Hdata : (firstn c (data b) ++ flat_map (swap_case (e_uni E)) (firstn (S i) (skipn c (data b)))) ++ skipn (c + S i) (data b)
    = (a ++ swap_case (e_uni E) z) ++ skipn (S (c + i)) (data b)).
  { rewrite Hflat. unfold a. rewrite !app_assoc. replace (c + S i) with (S (c + i)) by lia. reflexivity. }
  unfold swapped. rewrite Hend, Hdata, Hnext, existsb_app. cbn [existsb]. rewrite orb_false_r.
  assert (Hchange : forall l, swap_case (e_uni E) z = l ->
    okv (lift (delete_after_cursor E) ;;; mfor l (fun x => lift (insert_after_cursor E x))) v0 s (fun _ v' s' =>
      exists b', (data b' = (a ++ swap_case (e_uni E) z) ++ skipn (S (c + i)) (data b) /\
        recording (actions b) (data b) true b') /\ view s' b' (length (a ++ swap_case (e_uni E) z)) false /\ v' = v0)).
  { intros l ->. eapply okv_lands; [apply (ok_delete_after E _ _ _ _ V)|].
    intros ? s1 [[H0 _]|[a' [z' [r [H1 [H2 [V1 _]]]]]]].
    - rewrite D, app_length in H0. cbn [length] in H0. lia.
    - change (z :: skipn (S (c + i)) (data b)) with ([z] ++ skipn (S (c + i)) (data b)) in D.
      assert (H3 : a' = a /\ [z'] ++ r = [z] ++ skipn (S (c + i)) (data b)).
      { rewrite D in H1. symmetry in H1. apply app_eq_length in H1; [exact H1|]. exact H2. }
      destruct H3 as [-> H3]. injection H3 as -> ->.
      rewrite clamp_false in V1 by (rewrite app_length; lia).
      eapply okv_mono; [apply (okv_put_all E l (actions b) (data b) true a _ v0 _ _ _ V1 eq_refl)|].
      + eapply recording_cut; [exact R|exact D].
      + reflexivity.
      + intros ? v2 s2 [b2 [K1 [K2 [K3 K4]]]]. exists b2. auto. }
  unfold swap_case at 1 in Hchange. unfold letter at 2.
  destruct (u_lower (e_uni E) z) eqn:E1.
  - eapply okv_mono; [apply (Hchange _ eq_refl)|]. intros ? v2 s2 [b2 [[K1 K2] [K3 K4]]].
    exists b2. cbn [orb]. rewrite orb_true_r. auto.
  - destruct (u_upper (e_uni E) z) eqn:E2.
    + eapply okv_mono; [apply (Hchange _ eq_refl)|]. intros ? v2 s2 [b2 [[K1 K2] [K3 K4]]].
      exists b2. cbn [orb]. rewrite orb_true_r. auto.
    + apply okv_lift. eapply ok_mono; [apply (ok_move_right E 1 _ _ _ _ V)|]. intros ? s1 [V1 _].
      exists b'. cbn [orb]. rewrite orb_false_r.
      assert (swap_case (e_uni E) z = [z]) as -> by (unfold swap_case; rewrite E1, E2; reflexivity).
      assert (Nat.min (length a + 1) (length (data b')) = length (a ++ [z])) as Hm.
      { rewrite D, !app_length. cbn [length]. lia. }
      rewrite Hm, clamp_false in V1 by (rewrite D, !app_length; cbn [length]; lia).
      split; [split; [rewrite D, <- app_assoc; reflexivity|exact R]|]. split; [exact V1|reflexivity].
Qed.

Lemma okv_tilde : forall rec E v s b c, v_stack v = [] -> view s b c true -> c <= length (data b) ->
  let m := Nat.min (length (data b) - c) (N.to_nat (move_count v)) in
  okv (vi_normal rec E (kch "~")) v s (fun _ v' s' => v_stack v' = [] /\ v_count v' = v_count v /\
    notes v' None [kch "~"] (v_count v) /\
    exists b', swapped (e_uni E) b c m b' /\
      view s' (end_undo_group b') (stop_at (data b') (swap_end (e_uni E) (data b) c m)) true).
Proof.
  intros rec E v s b c Hst V Hc m. unfold kch, vi_normal. decide_okv. apply okv_modk.
  unfold set_mode, set_mode_preserve_last. apply okv_bind, okv_bind, okv_mod_ed, okv_modk. apply okv_bind.
  cbn [set_editor_mode]. unfold set_editor_mode. apply okv_getk. cbn [vmode_of v_stack vset_stack is_insert is_normal is_tilde orb when negb].
  apply okv_ret. apply okv_lift.
  eapply ok_mono; [apply ok_mut; eapply view_noeol; exact V|]. intros ? s1 [b1 [Hb1 [V1 _]]].
  unfold pure_op in Hb1. injection Hb1 as _ <-. apply okv_ret.
  eapply okv_mcr; [exact V1|exact Hc|].
  match goal with |- context [move_count ?w] => set (v1 := w); change (move_count v1) with (move_count v) end.
  cbn [data start_undo_group].
  replace (N.to_nat (N.min (N.of_nat (length (data b) - c)) (move_count v))) with m by (unfold m; lia).
  eapply okv_seq.
  - apply (okv_mfor (fun i v s => exists b', swapped (e_uni E) b c i b' /\
      view s b' (swap_end (e_uni E) (data b) c i) false /\ v = v1) _ _ 0).
    + intros i v2 s2 Hi. rewrite seq_length in Hi. apply okv_tilde_step. unfold m in Hi. lia.
    + exists (start_undo_group b). split; [split|split; [|reflexivity]].
      * cbn [firstn flat_map]. rewrite app_nil_r, Nat.add_0_r, firstn_skipn. reflexivity.
      * apply recording_start.
      * unfold swap_end. cbn [firstn flat_map length]. rewrite Nat.add_0_r. exact V1.
  - rewrite seq_length. cbn [Nat.add]. intros ? v2 s2 [b2 [O [V2 ->]]].
    unfold pop_mode. apply okv_getk.
    assert (vpop v1 = (MTilde, vset_stack (v_stack v) v1)) as -> by (unfold vpop, v1; reflexivity).
    rewrite Hst. cbv iota beta zeta. apply okv_modk, okv_mod_ed. cbn [is_insert is_tilde orb when].
    eapply okv_buf_mut; [eapply view_noeol; exact V2|]. intros s3 V3.
    apply okv_bind. apply okv_unwrap, okv_lift. eapply ok_mono; [apply (ok_display E _ _ _ _ V3)|]. intros ? s4 [V4 _].
    eapply okv_mono; [eapply okv_set_editor_mode; [left; reflexivity|exact V4]|]. intros ? v5 s5 [-> V5].
    split; [reflexivity|]. split; [reflexivity|]. split; [repeat split|]. exists b2. split; [exact O|].
    cbn [data end_undo_group vmode_of v_stack vset_stack vset_reset is_normal] in V5.
    rewrite clamp_idem in V5. rewrite clamp_stop in V5; [exact V5|].
    rewrite (proj1 O), app_length, app_length, firstn_length_le by lia. unfold swap_end. lia.
Qed.

Lemma typing_tilde : forall U ks n v s b c, calm v s b c -> count ks n ->
  let m := Nat.min (length (data b) - c) (N.to_nat n) in
  typing (fun E => e_uni E = U) (ks ++ [kch "~"]) v s (fun v' s' => v_stack v' = [] /\ v_count v' = stored ks n /\
    notes v' None [kch "~"] (stored ks n) /\
    exists b', swapped U b c m b' /\
      view s' (end_undo_group b') (stop_at (data b') (swap_end U (data b) c m)) true).
Proof.
  intros U ks n v s b c HC Hk m. eapply typing_counted; [exact HC|exact Hk|split; discriminate|].
  intros E rec v1 s1 <- Hv1 Hmc Hst V.
  eapply okv_mono; [apply (okv_tilde rec E v1 s1 b c Hst V (in_line _ _ (proj2 (proj2 (proj2 HC)))))|].
  rewrite Hmc. fold m. intros ? v2 s2 [H1 [H2 [H3 [b' [H4 H5]]]]]. subst v1.
  split; [exact H1|]. split; [exact H2|]. split; [exact H3|]. exists b'. split; [exact H4|]. apply view_hint. exact H5.
Qed.

(** * Counted [u] *)

(** [n] times undone. *)
Inductive undos : nat -> buffer -> nat -> buffer -> nat -> Prop :=
| undos_0 : forall b c, undos 0 b c b c
| undos_S : forall n b c did b1 b2 c2, buf_undo b = Val (did, b1) ->
    undos n b1 (if did then length (data b1) - 1 else c) b2 c2 -> undos (S n) b c b2 c2.

Lemma undos_snoc : forall n b c did b1 c1 b2, undos n b c b1 c1 -> buf_undo b1 = Val (did, b2) ->
  undos (S n) b c b2 (if did then length (data b2) - 1 else c1).
Proof.
  intros n b c did b1 c1 b2 H. induction H; intro Hu.
  - econstructor; [exact Hu|constructor].
  - econstructor; [exact H|]. apply IHundos. exact Hu.
Qed.
Lemma undos_fun : forall n b c b1 c1 b2 c2, undos n b c b1 c1 -> undos n b c b2 c2 -> b1 = b2 /\ c1 = c2.
Proof.
  intros n b c b1 c1 b2 c2 H. revert b2 c2. induction H; intros b3 c3 H3; inversion H3; subst; [auto|].
  assert (E : Val (did, b1) = Val (did0, b4)) by congruence. injection E as <- <-. apply IHundos. assumption.
Qed.
Lemma undo_none : forall b b', buf_undo b = Val (false, b') -> b' = b /\ actions b = [].
Proof.
  intros b b' H. unfold buf_undo in H. destruct (undo_loop _ _ _ _ _) as [x|p] eqn:Ex; [|discriminate].
  cbn [rbind] in H. injection H as H1 <-. destruct b as [d acts und]. cbn [actions data undone] in *.
  destruct acts; [|discriminate]. cbn in Ex. injection Ex as <-. auto.
Qed.
Lemma undos_idle : forall n b c, actions b = [] -> undos n b c b c.
Proof.
  induction n as [|n IH]; intros b c H; [constructor|]. destruct b as [d acts und]. cbn [actions] in H. subst acts.
  apply (undos_S n (mkBuf d [] und) c false (mkBuf d [] und)); [reflexivity|]. apply IH. reflexivity.
Qed.
Lemma undos_more : forall n m b c b1 c1, undos n b c b1 c1 -> actions b1 = [] -> n <= m -> undos m b c b1 c1.
Proof.
  intros n m b c b1 c1 H. revert m. induction H; intros m Ha Hm.
  - apply undos_idle. exact Ha.
  - destruct m as [|m]; [lia|]. econstructor; [exact H|]. apply IHundos; [exact Ha|lia].
Qed.

Lemma okv_nloop_stop : forall (I : nat -> vi -> ed -> Prop) (D : vi -> ed -> Prop) (body : MV bool) n i v s,
  (forall j v s, i <= j < i + n -> I j v s -> okv body v s (fun g v' s' => if g then I (S j) v' s' else D v' s')) ->
  I i v s -> okv (nloop n body) v s (fun _ v' s' => I (i + n) v' s' \/ D v' s').
Proof.
  intros I D body n. induction n as [|n IH]; intros i v s Hb HI.
  - rewrite Nat.add_0_r. left. exact HI.
  - cbn [nloop]. eapply okv_seq; [apply (Hb i); [lia|exact HI]|]. intros [|] v' s' HI'; cbv beta iota in HI'.
    + rewrite <- Nat.add_succ_comm. apply IH; [|exact HI']. intros j v2 s2 Hj. apply Hb. lia.
    + apply okv_ret. right. exact HI'.
Qed.
Lemma okv_Nloop_stop : forall (I : nat -> vi -> ed -> Prop) (D : vi -> ed -> Prop) (body : MV bool) n v s,
  (forall j v s, j < N.to_nat n -> I j v s -> okv body v s (fun g v' s' => if g then I (S j) v' s' else D v' s')) ->
  I 0 v s -> okv (Nloop n body) v s (fun _ v' s' => I (N.to_nat n) v' s' \/ D v' s').
Proof.
  intros I D body n v s Hb HI. destruct n as [|p]; [left; exact HI|]. cbn [Nloop].
  eapply okv_seq.
  - unfold okv. rewrite ploop_nloop. apply (okv_nloop_stop I D body (Pos.to_nat p) 0 v s); [|exact HI].
    intros j v2 s2 Hj. apply Hb. exact (proj2 Hj).
  - intros g v' s' H. apply okv_ret. exact H.
Qed.

Lemma undos_range : forall n b c b' c', undos n b c b' c' -> (c < length (data b) \/ data b = [] /\ c = 0) ->
  c' < length (data b') \/ data b' = [] /\ c' = 0.
Proof.
  intros n b c b' c' H. induction H; intro Hc; [exact Hc|]. apply IHundos. destruct did.
  - destruct (data b1); [right; auto|left; cbn; lia].
  - apply undo_none in H. destruct H as [-> _]. exact Hc.
Qed.

Lemma typing_undos : forall P ks n v s b c, calm v s b c -> count ks n ->
  typing P (ks ++ [kch "u"]) v s (fun v' s' => exists b' c', undos (N.to_nat n) b c b' c' /\ calm v' s' b' c').
Proof.
  intros P ks n v s b c HC Hk. eapply typing_counted; [exact HC|exact Hk|split; discriminate|].
  intros E rec v1 s1 _ Hv1 Hmc Hst V. unfold kch, vi_normal. decide_okv. apply okv_getk, okv_modk. rewrite Hmc.
  eapply okv_mono.
  - apply (okv_Nloop_stop (fun i v2 s => v2 = vset_count 0 v1 /\ exists b' c', undos i b c b' c' /\ view s b' c' true)
      (fun v2 s => v2 = vset_count 0 v1 /\ exists i b' c', i <= N.to_nat n /\ undos i b c b' c' /\ actions b' = [] /\ view s b' c' true)).
    + intros i v2 s2 Hi [-> [b' [c' [U V2]]]]. apply okv_lift.
      eapply ok_mono; [apply (ok_undo_like E buf_undo _ _ _ _ V2)|]. intros did s3 [b3 [H3 [V3 _]]].
      pose proof (undos_snoc _ _ _ _ _ _ _ U H3) as U'. destruct did.
      * rewrite clamp_end in V3. split; [reflexivity|]. eauto.
      * apply undo_none in H3. destruct H3 as [-> Ha]. split; [reflexivity|]. exists i, b', c'. split; [lia|].
        split; [exact U|]. split; [exact Ha|].
        rewrite clamp_calm in V3 by (eapply undos_range; [exact U|apply HC]). exact V3.
    + split; [reflexivity|]. exists b, c. split; [constructor|exact V].
  - intros ? v2 s2 H.
    assert (Hfin : forall b' c', v2 = vset_count 0 v1 -> undos (N.to_nat n) b c b' c' -> view s2 b' c' true ->
      exists b' c', undos (N.to_nat n) b c b' c' /\ calm v2 (set_hint None s2) b' c').
    { intros b' c' -> U V2. exists b', c'. split; [exact U|]. split; [exact Hst|]. split; [reflexivity|].
      split; [apply view_hint; exact V2|]. eapply undos_range; [exact U|apply HC]. }
    destruct H as [[-> [b' [c' [U V2]]]]|[-> [i [b' [c' [Hi [U [Ha V2]]]]]]]]; [eapply Hfin; eauto|].
    eapply Hfin; [reflexivity| |exact V2]. eapply undos_more; eauto.
Qed.
Lemma typing_us : forall P n v s b c, calm v s b c ->
  typing P (repeat (kch "u") n) v s (fun v' s' => exists b' c', undos n b c b' c' /\ calm v' s' b' c').
Proof.
  intros P n. induction n as [|n IH]; intros v s b c HC; cbn [repeat].
  - apply typing_nil. exists b, c. split; [constructor|exact HC].
  - change (kch "u" :: repeat (kch "u") n) with (([] ++ [kch "u"]) ++ repeat (kch "u") n). apply typing_app.
    eapply typing_mono; [eapply typing_undos; [exact HC|exact count_none]|]. intros v1 s1 [b1 [c1 [U HC1]]].
    eapply typing_mono; [apply (IH _ _ _ _ HC1)|]. intros v2 s2 [b2 [c2 [U2 HC2]]]. exists b2, c2. split; [|exact HC2].
    change (N.to_nat 1) with 1 in U. inversion U; subst.
    match goal with H : undos 0 _ _ _ _ |- _ => inversion H; subst end. econstructor; eauto.
Qed.

(** * Sessions *)

Lemma vi_r : forall v s t c ks n x l d v' s', ready v s t c -> count ks n -> x <> c_tab -> x <> c_nl ->
  map snd l = ks ++ [kch "r"; KChar x] -> run_keys vi_core l (v, s) = ORet d (v', s') ->
  d = false /\
  ((n <= N.of_nat (length t - c))%N ->
     ready v' s' (firstn c t ++ repeat x (N.to_nat n) ++ skipn (c + N.to_nat n) t) (c + N.to_nat n - 1)) /\
  ((N.of_nat (length t - c) < n)%N -> ready v' s' t c).
Proof.
  intros v s t c ks n x l d v' s' Hr Hk N1 N2 Hl H.
  destruct (ready_typing v s t c any (map snd l) l d v' s' (fun b v' s' => replaced v b c x n (stored ks n) v' s') Hr)
    as [-> [b [<- [Hg HC]]]]; [|reflexivity|apply any_all|exact H|].
  - intros b Hb HC. rewrite Hl. subst t. apply typing_r; assumption.
  - split; [reflexivity|]. destruct Hg as [[Hn [Hg _]]|[Hn [_ [b' [[D _] Hg]]]]].
    + split; [intro; lia|]. intros _. exact (calm_ready _ _ _ _ _ _ _ (proj1 Hr) H Hg).
    + split; [|intro; lia]. intros _. pose proof (calm_ready _ _ _ _ _ _ _ (proj1 Hr) H Hg) as K.
      cbn [data end_undo_group] in K. rewrite D in K. exact K.
Qed.
Lemma vi_r_undo : forall v s t c ks n x l d v' s', ready v s t c -> count ks n -> x <> c_tab -> x <> c_nl ->
  (n <= N.of_nat (length t - c))%N ->
  map snd l = ks ++ [kch "r"; KChar x; kch "u"] -> run_keys vi_core l (v, s) = ORet d (v', s') ->
  d = false /\ ready v' s' t (length t - 1).
Proof.
  intros v s t c ks n x l d v' s' Hr Hk N1 N2 Hn Hl H.
  destruct (ready_typing v s t c any (map snd l) l d v' s' (fun b v' s' =>
    exists u, calm v' s' (mkBuf (data b) (actions b) u) (length (data b) - 1)) Hr)
    as [-> [b [<- [[u Hg] HC]]]]; [|reflexivity|apply any_all|exact H|].
  - intros b Hb HC. rewrite Hl. subst t.
    replace (ks ++ [kch "r"; KChar x; kch "u"]) with ((ks ++ [kch "r"; KChar x]) ++ [kch "u"])
      by (rewrite <- app_assoc; reflexivity).
    apply typing_app. eapply typing_mono; [eapply typing_r; eauto|].
    intros v1 s1 [[Hn' _]|[_ [_ [b' [[D R] Hg]]]]]; [lia|].
    assert (Hpos : (0 <? N.to_nat n) = true) by (apply Nat.ltb_lt; pose proof (count_pos _ _ Hk); lia).
    rewrite Hpos in R. destruct (recording_undo _ _ _ R) as [u Hu].
    eapply typing_mono; [eapply typing_u; [exact Hg|exact Hu]|]. intros v2 s2 K. exists u. exact K.
  - split; [reflexivity|]. exact (calm_ready _ _ _ _ _ _ _ (proj1 Hr) H Hg).
Qed.
Lemma vi_r_cancel : forall v s t c ks n k l d v' s', ready v s t c -> count ks n -> In k [KEsc; KBackspace; KDelete] ->
  map snd l = ks ++ [kch "r"; k] -> run_keys vi_core l (v, s) = ORet d (v', s') ->
  d = false /\ ready v' s' t c.
Proof.
  intros v s t c ks n k l d v' s' Hr Hk Hi Hl H.
  destruct (ready_typing v s t c any (map snd l) l d v' s' (fun b v' s' => calm v' s' b c) Hr)
    as [-> [b [<- [Hg HC]]]]; [|reflexivity|apply any_all|exact H|].
  - intros b Hb HC. rewrite Hl. subst t. eapply typing_r_cancel; eauto.
  - split; [reflexivity|]. exact (calm_ready _ _ _ _ _ _ _ (proj1 Hr) H Hg).
Qed.

Lemma vi_tilde : forall U v s t c ks n l d v' s', ready v s t c -> count ks n ->
  map snd l = ks ++ [kch "~"] -> Forall (fun x => e_uni (fst x) = U) l ->
  run_keys vi_core l (v, s) = ORet d (v', s') ->
  d = false /\
  let mid := flat_map (swap_case U) (firstn (N.to_nat n) (skipn c t)) in
  let t' := firstn c t ++ mid ++ skipn (c + N.to_nat n) t in
  vmode_of v' = MNormal /\ is_search s' = false /\ line_is s' t' (Nat.min (c + length mid) (length t' - 1)) /\
  (ks = [] -> v_count v' = 0%N).
Proof.
  intros U v s t c ks n l d v' s' Hr Hk Hl HU H.
  destruct (ready_typing v s t c (fun E => e_uni E = U) (map snd l) l d v' s' (fun b v' s' =>
    let m := Nat.min (length (data b) - c) (N.to_nat n) in
    v_stack v' = [] /\ v_count v' = stored ks n /\ notes v' None [kch "~"] (stored ks n) /\
    exists b', swapped U b c m b' /\
      view s' (end_undo_group b') (stop_at (data b') (swap_end U (data b) c m)) true) Hr)
    as [-> [b [<- [Hg HC]]]]; [|reflexivity|exact HU|exact H|].
  - intros b Hb HC. rewrite Hl. subst t. apply typing_tilde; assumption.
  - split; [reflexivity|]. cbv zeta in *. destruct Hg as [H1 [H2 [_ [b' [[D _] V]]]]].
    pose proof (in_line _ _ (proj2 (proj2 (proj2 HC)))) as Hle.
    assert (F : firstn (Nat.min (length (data b) - c) (N.to_nat n)) (skipn c (data b)) = firstn (N.to_nat n) (skipn c (data b))).
    { destruct (Nat.le_ge_cases (length (data b) - c) (N.to_nat n)) as [L|L].
      - rewrite Nat.min_l by exact L. rewrite !firstn_all2; [reflexivity|rewrite skipn_length; exact L|rewrite skipn_length; lia].
      - rewrite Nat.min_r by exact L. reflexivity. }
    assert (K : skipn (c + Nat.min (length (data b) - c) (N.to_nat n)) (data b) = skipn (c + N.to_nat n) (data b)).
    { destruct (Nat.le_ge_cases (length (data b) - c) (N.to_nat n)) as [L|L].
      - rewrite Nat.min_l by exact L. rewrite !skipn_all2 by lia. reflexivity.
      - rewrite Nat.min_r by exact L. reflexivity. }
    unfold swap_end in V. rewrite F, K, <- app_assoc in D. rewrite F in V. rewrite <- D.
    split; [unfold vmode_of; rewrite H1; reflexivity|]. pose proof V as [V1 [_ [V3 _]]]. split; [exact V1|].
    split; [|intros ->; exact H2].
    destruct (view_line _ _ _ _ V) as [b0 [L1 L2]]. exists b0. auto.
Qed.
Lemma vi_tilde_undo : forall U v s t c l d v' s', ready v s t c ->
  (exists x, nth_error t c = Some x /\ (u_lower U x = true \/ u_upper U x = true)) ->
  map snd l = [kch "~"; kch "u"] -> Forall (fun x => e_uni (fst x) = U) l ->
  run_keys vi_core l (v, s) = ORet d (v', s') ->
  d = false /\ ready v' s' t (length t - 1).
Proof.
  intros U v s t c l d v' s' Hr [x [Hx Hlet]] Hl HU H.
  destruct (ready_typing v s t c (fun E => e_uni E = U) (map snd l) l d v' s' (fun b v' s' =>
    exists u, calm v' s' (mkBuf (data b) (actions b) u) (length (data b) - 1)) Hr)
    as [-> [b [<- [[u Hg] HC]]]]; [|reflexivity|exact HU|exact H|].
  - intros b Hb HC. rewrite Hl. subst t. change [kch "~"; kch "u"] with (([] ++ [kch "~"]) ++ [kch "u"]).
    apply typing_app. eapply typing_mono; [eapply typing_tilde; [exact HC|exact count_none]|]. cbv zeta.
    intros v1 s1 [H1 [H2 [_ [b' [[D R] V]]]]].
    assert (Hc : c < length (data b)) by (apply nth_error_Some; rewrite Hx; discriminate).
    replace (Nat.min (length (data b) - c) (N.to_nat 1)) with 1 in * by (change (N.to_nat 1) with 1; lia).
    assert (F : firstn 1 (skipn c (data b)) = [x]).
    { apply (firstn_snoc _ 0). rewrite skipn_nth, Nat.add_0_r. exact Hx. }
    rewrite F in R. cbn [existsb] in R.
    assert (letter U x = true) as Hx1 by (unfold letter; apply orb_true_iff; exact Hlet). rewrite Hx1 in R.
    destruct (recording_undo _ _ _ R) as [u Hu].
    eapply typing_mono; [eapply typing_u; [|exact Hu]|].
    + split; [exact H1|]. split; [exact H2|]. split; [exact V|]. cbn [data end_undo_group]. unfold stop_at.
      destruct (data b') as [|z r]; [right; cbn; split; [reflexivity|lia]|left; cbn; lia].
    + intros v2 s2 K. exists u. exact K.
  - split; [reflexivity|]. exact (calm_ready _ _ _ _ _ _ _ (proj1 Hr) H Hg).
Qed.

Lemma vi_undos : forall v s t c ks n l l' d v1 s1 d' v2 s2, ready v s t c -> count ks n ->
  map snd l = ks ++ [kch "u"] -> map snd l' = repeat (kch "u") (N.to_nat n) ->
  run_keys vi_core l (v, s) = ORet d (v1, s1) -> run_keys vi_core l' (v, s) = ORet d' (v2, s2) ->
  d = false /\ d' = false /\ exists t' c', ready v1 s1 t' c' /\ ready v2 s2 t' c'.
Proof.
  intros v s t c ks n l l' d v1 s1 d' v2 s2 Hr Hk Hl Hl' H H'.
  destruct (ready_calm v s t c Hr) as [b [Hb HC]].
  pose proof (typing_undos any ks n v s b c HC Hk l Hl (any_all l)) as K. unfold okv in K. rewrite H in K.
  destruct K as [-> [b1 [c1 [U1 C1]]]].
  pose proof (typing_us any (N.to_nat n) v s b c HC l' Hl' (any_all l')) as K. unfold okv in K. rewrite H' in K.
  destruct K as [-> [b2 [c2 [U2 C2]]]].
  destruct (undos_fun _ _ _ _ _ _ _ U1 U2) as [-> ->].
  split; [reflexivity|]. split; [reflexivity|]. exists (data b2), c2.
  split; [exact (calm_ready _ _ _ _ _ _ _ (proj1 Hr) H C1)|exact (calm_ready _ _ _ _ _ _ _ (proj1 Hr) H' C2)].
Qed.
