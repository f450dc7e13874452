(** What the Vi key map does to its own state, whatever the editor does. *)
From Verif Require Import Base Utf8 BufferModel UtilModel HistoryModel EditorState EditorModel
  KeymapModel ViModel MonadLemmas EditorLemmas.
Local Open Scope monad_scope.

(** * Editor methods do not use fuel *)

Definition nofuel {S A} (m : M S A) : Prop :=
  forall s, match m s with OFuel => False | _ => True end.

Lemma nf_bind : forall {S A B} (m : M S A) (k : A -> M S B),
  nofuel m -> (forall a, nofuel (k a)) -> nofuel (bind m k).
Proof.
  intros S A B m k Hm Hk s. unfold bind. specialize (Hm s). destruct (m s) as [a s'| | |]; auto.
  apply Hk.
Qed.
Lemma nf_ret : forall {S A} (a : A), nofuel (@ret S A a).
Proof. intros S A a s. exact I. Qed.
Lemma nf_pan : forall {S A} p, nofuel (@pan S A p).
Proof. intros S A p s. exact I. Qed.
Lemma nf_get : forall {S}, nofuel (@get S).
Proof. intros S s. exact I. Qed.
Lemma nf_gets : forall {S A} (f : S -> A), nofuel (gets f).
Proof. intros S A f s. exact I. Qed.
Lemma nf_modify : forall {S} (f : S -> S), nofuel (modify f).
Proof. intros S f s. exact I. Qed.
Lemma nf_liftr : forall {S A} (r : res A), nofuel (@liftr S A r).
Proof. intros S A r s. unfold liftr. destruct r; exact I. Qed.
Lemma nf_when : forall {S} b (m : M S unit), nofuel m -> nofuel (when b m).
Proof. intros S b m H. destruct b; [exact H|apply nf_ret]. Qed.
Lemma nf_get_cur : nofuel get_cur.
Proof. intros s. unfold get_cur. destruct (cur_buf s); exact I. Qed.
Lemma nf_with_cur_mut : forall {A} (f : buffer -> res (A * buffer)), nofuel (with_cur_mut f).
Proof.
  intros A f. apply nf_bind.
  - intro s. unfold cur_prep. edsimp. destruct (ed_loc s); [|exact I].
    destruct (ed_hvalid s); [exact I|]. destruct (hist_get _ _); [|exact I].
    destruct (copy_buffer _ _); exact I.
  - intros _ s. unfold cur_upd. destruct (ed_loc s);
      [destruct (f (ed_hist s)) as [[? ?]|]|destruct (f (ed_new s)) as [[? ?]|]]; exact I.
Qed.
Lemma nf_write : forall E t, nofuel (tty_write E t).
Proof. intros E t s. unfold tty_write. destruct (e_wok E); exact I. Qed.
Lemma nf_display_impl : forall E b, nofuel (display_impl E b).
Proof.
  intros E b s. pose proof (display_impl_out E b s) as H. destruct (display_impl E b s); auto.
Qed.
Lemma nf_display : forall E, nofuel (display E).
Proof. intros E s. pose proof (display_out E s) as H. destruct (display E s); auto. Qed.

Create HintDb nf.
#[export] Hint Resolve nf_write nf_display nf_display_impl nf_get_cur nf_with_cur_mut : nf.
Ltac nf1 :=
  cbv beta zeta;
  match goal with
  | |- nofuel (bind _ _) => apply nf_bind; [|intro]
  | |- nofuel (ret _) => apply nf_ret
  | |- nofuel (pan _) => apply nf_pan
  | |- nofuel get => apply nf_get
  | |- nofuel (gets _) => apply nf_gets
  | |- nofuel (liftr _) => apply nf_liftr
  | |- nofuel (when _ _) => apply nf_when
  | |- nofuel (modify _) => apply nf_modify
  | |- nofuel (match ?x with _ => _ end) => destruct x
  | |- nofuel _ => solve [auto with nf]
  end.
Ltac nf := repeat nf1.

Lemma nf_move_end : forall E, nofuel (move_cursor_to_end_of_line E).
Proof. intro E. unfold move_cursor_to_end_of_line. nf. Qed.
Lemma nf_move_start : forall E, nofuel (move_cursor_to_start_of_line E).
Proof. intro E. unfold move_cursor_to_start_of_line. nf. Qed.
Lemma nf_move_to : forall E n, nofuel (move_cursor_to E n).
Proof. intros E n. unfold move_cursor_to. nf. Qed.
Lemma nf_move_left : forall E n, nofuel (move_cursor_left E n).
Proof. intros E n. unfold move_cursor_left. nf. Qed.
Lemma nf_move_right : forall E n, nofuel (move_cursor_right E n).
Proof. intros E n. unfold move_cursor_right. nf. Qed.
Lemma nf_insert : forall E t, nofuel (insert_chars_after_cursor E t).
Proof. intros E t. unfold insert_chars_after_cursor. nf. Qed.
Lemma nf_insert1 : forall E c, nofuel (insert_after_cursor E c).
Proof. intros E c. apply nf_insert. Qed.
Lemma nf_insert_str : forall E c, nofuel (insert_str_after_cursor E c).
Proof. intros E c. apply nf_insert. Qed.
Lemma nf_del_before : forall E, nofuel (delete_before_cursor E).
Proof. intros E. unfold delete_before_cursor. nf. Qed.
Lemma nf_del_after : forall E, nofuel (delete_after_cursor E).
Proof. intros E. unfold delete_after_cursor. nf. Qed.
Lemma nf_del_all_before : forall E, nofuel (delete_all_before_cursor E).
Proof. intros E. unfold delete_all_before_cursor. nf. Qed.
Lemma nf_del_all_after : forall E, nofuel (delete_all_after_cursor E).
Proof. intros E. unfold delete_all_after_cursor. nf. Qed.
Lemma nf_del_until : forall E n, nofuel (delete_until E n).
Proof. intros E n. unfold delete_until. nf. Qed.
Lemma nf_del_until_inc : forall E n, nofuel (delete_until_inclusive E n).
Proof. intros E n. unfold delete_until_inclusive. nf. Qed.
Lemma nf_del_word : forall E b, nofuel (delete_word_before_cursor E b).
Proof. intros E b. unfold delete_word_before_cursor. nf. Qed.
Lemma nf_clear : forall E, nofuel (clear E).
Proof. intros E. unfold clear. nf. Qed.
#[export] Hint Resolve nf_move_end nf_move_start nf_move_to nf_move_left nf_move_right
  nf_insert nf_insert1 nf_insert_str nf_del_before nf_del_after nf_del_all_before
  nf_del_all_after nf_del_until nf_del_until_inc nf_del_word nf_clear : nf.
Lemma nf_undo : forall E, nofuel (ed_undo E).
Proof. intro E. unfold ed_undo, undo_like. nf. Qed.
Lemma nf_redo : forall E, nofuel (ed_redo E).
Proof. intro E. unfold ed_redo, undo_like. nf. Qed.
Lemma nf_search : forall E b, nofuel (search E b).
Proof. intros E b. unfold search. nf. Qed.
#[export] Hint Resolve nf_undo nf_redo nf_search : nf.
Lemma nf_move_up : forall E, nofuel (move_up E).
Proof. intros E. unfold move_up. nf. Qed.
Lemma nf_move_down : forall E, nofuel (move_down E).
Proof. intros E. unfold move_down. nf. Qed.
Lemma nf_accept : forall E, nofuel (accept_autosuggestion E).
Proof. intros E. unfold accept_autosuggestion. nf. Qed.
Lemma nf_complete : forall E, nofuel (complete E).
Proof. intros E. unfold complete. nf. Qed.
#[export] Hint Resolve nf_move_up nf_move_down nf_accept nf_complete : nf.
Lemma nf_newline : forall E, nofuel (handle_newline E).
Proof. intros E. unfold handle_newline. nf. Qed.
Lemma nf_word : forall E a b n, nofuel (vi_move_word E a b n).
Proof. intros. unfold vi_move_word. nf. Qed.
Lemma nf_word_end : forall E a b n, nofuel (vi_move_word_end E a b n).
Proof. intros. unfold vi_move_word_end. nf. Qed.
#[export] Hint Resolve nf_newline nf_word nf_word_end : nf.

(** * The key map's own state *)

(** Started with the key map in state [v], [m] has enough fuel, and a normal
    return with answer [a] leaves it in a state [v'] satisfying [Q a v']. *)
Definition vk {A} (m : MV A) (v : vi) (Q : A -> vi -> Prop) : Prop :=
  forall s, match m (v, s) with
            | ORet a (v', _) => Q a v'
            | OErr _ _ | OPanic _ => True
            | OFuel => False
            end.

Section VK.
  Context {A : Type}.
  Implicit Types (Q : A -> vi -> Prop).

  Lemma vk_mono : forall (m : MV A) v Q Q',
    vk m v Q -> (forall a v', Q a v' -> Q' a v') -> vk m v Q'.
  Proof. intros m v Q Q' H HQ s. specialize (H s). destruct (m (v, s)) as [a [v' s']| | |]; auto. Qed.
  Lemma vk_bind : forall {B} (m : MV B) (k : B -> MV A) v Q,
    vk m v (fun b v' => vk (k b) v' Q) -> vk (bind m k) v Q.
  Proof.
    intros B m k v Q H s. specialize (H s). unfold bind. destruct (m (v, s)) as [a [v' s']| | |]; auto.
    apply H.
  Qed.
  Lemma vk_ret : forall (a : A) v Q, Q a v -> vk (ret a) v Q.
  Proof. intros a v Q H s. exact H. Qed.
  Lemma vk_pan : forall p v Q, vk (@pan _ A p) v Q.
  Proof. intros p v Q s. exact I. Qed.
  Lemma vk_fail : forall e v Q, vk (@fail _ A e) v Q.
  Proof. intros p v Q s. exact I. Qed.
  Lemma vk_liftr : forall (r : res A) v Q, (forall a, r = Val a -> Q a v) -> vk (liftr r) v Q.
  Proof. intros r v Q H s. unfold liftr. destruct r; [exact (H a eq_refl)|exact I]. Qed.
  Lemma vk_lift : forall (m : ME A) v Q, nofuel m -> (forall a, Q a v) -> vk (lift m) v Q.
  Proof. intros m v Q Hm H s. specialize (Hm s). unfold lift. destruct (m s); auto. Qed.
  Lemma vk_getk : forall (k : vi -> MV A) v Q, vk (k v) v Q -> vk (bind getk k) v Q.
  Proof. intros k v Q H s. exact (H s). Qed.
End VK.
Section VKU.
  Implicit Types (Q : unit -> vi -> Prop) (I : vi -> Prop).

  Lemma vk_modk : forall f v Q, Q tt (f v) -> vk (modk f) v Q.
  Proof. intros f v Q H s. exact H. Qed.
  Lemma vk_mod_ed : forall f v Q, Q tt v -> vk (mod_ed f) v Q.
  Proof. intros f v Q H s. exact H. Qed.
  Lemma vk_gete : forall v (Q : ed -> vi -> Prop), (forall s, Q s v) -> vk gete v Q.
  Proof. intros v Q H s. apply H. Qed.
  Lemma vk_when : forall b (m : MV unit) v Q,
    (b = true -> vk m v Q) -> (b = false -> Q tt v) -> vk (when b m) v Q.
  Proof. intros b m v Q H1 H2. destruct b; [exact (H1 eq_refl)|apply vk_ret; exact (H2 eq_refl)]. Qed.
  Lemma vk_mfor : forall {A} (body : A -> MV unit) I l v,
    (forall x v, I v -> vk (body x) v (fun _ => I)) -> I v -> vk (mfor l body) v (fun _ => I).
  Proof.
    intros A body I0 l. induction l as [|x l IH]; intros v H Hv; cbn [mfor]; [apply vk_ret; exact Hv|].
    apply vk_bind. eapply vk_mono; [apply H; exact Hv|]. intros ? v' Hv'. apply IH; assumption.
  Qed.
  Lemma vk_ploop : forall (body : MV bool) I p v,
    (forall v, I v -> vk body v (fun _ => I)) -> I v -> vk (ploop p body) v (fun _ => I).
  Proof.
    intros body I0 p. induction p as [q IH|q IH|]; intros v H Hv; cbn [ploop].
    - apply vk_bind. eapply vk_mono; [apply H; exact Hv|]. intros [|] v1 H1; [|apply vk_ret; exact H1].
      apply vk_bind. eapply vk_mono; [apply IH; [exact H|exact H1]|].
      intros [|] v2 H2; [|apply vk_ret; exact H2]. apply IH; assumption.
    - apply vk_bind. eapply vk_mono; [apply IH; [exact H|exact Hv]|].
      intros [|] v2 H2; [|apply vk_ret; exact H2]. apply IH; assumption.
    - apply H. exact Hv.
  Qed.
  Lemma vk_Nloop : forall (body : MV bool) I n v,
    (forall v, I v -> vk body v (fun _ => I)) -> I v -> vk (Nloop n body) v (fun _ => I).
  Proof.
    intros body I0 n v H Hv. unfold Nloop. destruct n as [|p]; [apply vk_ret; exact Hv|].
    apply vk_bind. eapply vk_mono; [apply vk_ploop; [exact H|exact Hv]|]. intros a v' Hv'.
    apply vk_ret. exact Hv'.
  Qed.
End VKU.

(** Running the parts of a program that do not call [handle_key_core]. *)
Ltac vk1 :=
  cbv beta zeta;
  match goal with
  | |- vk (bind getk _) _ _ => apply vk_getk
  | |- vk (bind _ _) _ _ => apply vk_bind
  | |- vk (ret _) _ _ => apply vk_ret
  | |- vk (pan _) _ _ => apply vk_pan
  | |- vk (fail _) _ _ => apply vk_fail
  | |- vk (liftr _) _ _ => apply vk_liftr; intros ? _
  | |- vk gete _ _ => apply vk_gete; intro
  | |- vk (modk _) _ _ => apply vk_modk
  | |- vk (mod_ed _) _ _ => apply vk_mod_ed
  | |- vk (lift (match ?x with _ => _ end)) _ _ => destruct x
  | |- vk (lift _) _ _ => apply vk_lift; [solve [auto with nf | nf]|intro]
  end.
Ltac vks := repeat vk1.

Section Modes.
  Implicit Types (Q : unit -> vi -> Prop).

  Lemma vk_set_editor_mode : forall E v Q, Q tt v -> vk (set_editor_mode E) v Q.
  Proof.
    intros E v Q H. unfold set_editor_mode. vks.
    destruct (vmode_of v); vks; try exact H; destruct a; exact H.
  Qed.
  Lemma vk_buf_mut : forall f v Q, Q tt v -> vk (buf_mut f) v Q.
  Proof. intros f v Q H. unfold buf_mut. vks. destruct a. exact H. Qed.
  Lemma vk_mcr : forall v (Q : nat -> vi -> Prop), (forall n, Q n v) -> vk mcr v Q.
  Proof. intros v Q H. unfold mcr. vks. apply H. Qed.
End Modes.

(** [set_mode_preserve_last] and [set_mode] *)
Definition enter_mode (m : vmode) (v : vi) : vi :=
  vset_stack (m :: v_stack v) (vset_reset (negb (is_insert m)) v).
Definition enter_mode_fresh (m : vmode) (v : vi) : vi :=
  if is_insert m then vset_last [] (vset_lcount 0 (enter_mode m v)) else enter_mode m v.
(** [pop_mode] *)
Definition leave_mode (v : vi) : vi :=
  let v1 := vset_stack (tl (v_stack v)) v in vset_reset (negb (is_insert (vmode_of v1))) v1.
(** [normal_mode_abort] *)
Definition abort_mode (v : vi) : vi := vset_count 0 (vset_stack [] v).
(** [pop_mode_after_movement] *)
Definition after_movement (v : vi) : vi :=
  let original := vmode_of v in
  let v1 := vset_stack (tl (v_stack v)) v in
  let '(last, v2) := match vmode_of v1 with
                     | MDelete d => (MDelete d, vset_stack (tl (v_stack v1)) v1)
                     | _ => (original, v1)
                     end in
  let v3 := vset_reset (negb (is_insert (vmode_of v2))) v2 in
  let v4 := match last with
            | MDelete _ => vset_count 0 (vset_sec 0 (vset_lcount (v_count v3)
                (vset_lastins (v_curins v3) (vset_cur (v_last v3) (vset_last (v_cur v3) v3)))))
            | _ => v3
            end in
  if is_normal original then vset_count 0 v4 else v4.

Lemma vpop_eq : forall v, vpop v = (vmode_of v, vset_stack (tl (v_stack v)) v).
Proof. intros [st cur lst ci li c sc lc r lm]. unfold vpop, vmode_of. destruct st; reflexivity. Qed.

(** The character searches that wait for a character; the remembered search is
    one of them. *)
Definition direct (m : cmove) : Prop := m <> RepeatMove /\ m <> ReverseRepeat.
Definition lcm_ok (v : vi) : Prop := forall c m, v_lcm v = Some (c, m) -> direct m.

Section Modes2.
  Implicit Types (Q : unit -> vi -> Prop).

  Lemma vk_smpl : forall E m v Q, Q tt (enter_mode m v) -> vk (set_mode_preserve_last E m) v Q.
  Proof.
    intros E m v Q H. unfold set_mode_preserve_last. vks. apply vk_set_editor_mode.
    apply vk_when; intro; [apply vk_buf_mut|]; exact H.
  Qed.
  Lemma vk_set_mode : forall E m v Q, Q tt (enter_mode_fresh m v) -> vk (set_mode E m) v Q.
  Proof.
    intros E m v Q H. unfold set_mode. apply vk_bind. apply vk_smpl. unfold enter_mode_fresh in H.
    apply vk_when; intro Hm; rewrite Hm in H; [apply vk_modk|]; exact H.
  Qed.
  Lemma vk_pop_mode : forall E v Q, Q tt (leave_mode v) -> vk (pop_mode E) v Q.
  Proof.
    intros E v Q H. unfold pop_mode. apply vk_getk. rewrite vpop_eq. vks.
    assert (Hk : vk (when (is_tilde (vmode_of v)) (fun st =>
        match lift (display E) st with OErr _ _ => OPanic PUnwrap | o => o end) ;;; set_editor_mode E)
        (leave_mode v) Q).
    { apply vk_bind. apply vk_when; intros _; [|apply vk_set_editor_mode; exact H].
      intro s. unfold lift. pose proof (nf_display E s) as Hn. destruct (display E s); auto.
      apply vk_set_editor_mode. exact H. }
    apply vk_when; intros _; [apply vk_buf_mut|]; exact Hk.
  Qed.
  Lemma vk_abort : forall E v Q, Q tt (abort_mode v) -> vk (normal_mode_abort E) v Q.
  Proof. intros E v Q H. unfold normal_mode_abort. vks. apply vk_set_editor_mode. exact H. Qed.

  Lemma vk_pop_am : forall E mt v Q, Q tt (after_movement v) -> vk (pop_mode_after_movement E mt) v Q.
  Proof.
    intros E mt v Q H. unfold pop_mode_after_movement. apply vk_getk. rewrite vpop_eq.
    unfold after_movement in H. cbv zeta in H.
    set (v1 := vset_stack (tl (v_stack v)) v) in *. rewrite vpop_eq.
    set (p := match vmode_of v1 with MDelete d => (MDelete d, vset_stack (tl (v_stack v1)) v1)
              | _ => (vmode_of v, v1) end) in *.
    replace (match vmode_of v1 with MDelete _ => (vmode_of v1, vset_stack (tl (v_stack v1)) v1)
             | _ => (vmode_of v, v1) end) with p by (unfold p; destruct (vmode_of v1); reflexivity).
    destruct p as [last v2]. vks.
    destruct last; vks; try (destruct mt; vks); apply vk_when; intro Hn; rewrite Hn in H; vks;
      apply vk_set_editor_mode; exact H.
  Qed.

  Lemma vk_common : forall E k v Q, Q tt v -> vk (vi_common E k) v Q.
  Proof.
    intros E k v Q H. unfold vi_common. apply vk_lift; [|intros []; exact H].
    destruct k; nf.
  Qed.
  Lemma vk_tilde : forall E v Q, Q tt v -> vk (tilde_step E) v Q.
  Proof.
    intros E v Q H. unfold tilde_step. apply vk_bind, vk_gete. intro s. apply vk_bind. vks.
    destruct (char_after a (ed_cursor s)); [|vks].
    assert (Hm : forall l, vk (mfor l (fun x => lift (insert_after_cursor E x))) v Q).
    { intros l. eapply vk_mono.
      - apply (vk_mfor _ (fun v' => v' = v)); [|reflexivity]. intros x v1 ->. vks. reflexivity.
      - intros [] v' ->. exact H. }
    destruct (u_lower (e_uni E) n); [vks; apply Hm|].
    destruct (u_upper (e_uni E) n); [vks; apply Hm|]. vks. destruct a0. exact H.
  Qed.
  Lemma vk_finally : forall m f v Q, vk m v (fun a v' => Q a (f v')) -> vk (finally m f) v Q.
  Proof.
    intros m f v Q H s. specialize (H s). unfold finally. destruct (m (v, s)) as [a [v' s']|e [v' s']| |]; auto.
  Qed.

  (** [vi_move_to_char]: the command is done or aborted. *)
  Lemma vk_move_to_char : forall E k m v Q, lcm_ok v ->
    (forall v', v_stack v' = v_stack v -> v_last v' = v_last v -> v_curins v' = v_curins v ->
       v_lastins v' = v_lastins v -> v_count v' = 0%N ->
       lcm_ok v' ->
       (v_cur v' = v_cur v \/ (direct m /\ exists c, k = KChar c /\ v_cur v' = v_cur v ++ [k])) ->
       Q tt (after_movement v') /\ Q tt (abort_mode v')) ->
    vk (vi_move_to_char E k m) v Q.
  Proof.
    intros E k m v Q Hl H. unfold vi_move_to_char. apply vk_getk. cbv zeta.
    apply vk_bind, vk_modk. apply vk_bind.
    set (v0 := vset_count 0 v).
    set (same := fun v' => v_stack v' = v_stack v /\ v_last v' = v_last v /\ v_curins v' = v_curins v /\
       v_lastins v' = v_lastins v /\ v_count v' = 0%N /\
       lcm_ok v' /\
       (v_cur v' = v_cur v \/ (direct m /\ exists c, k = KChar c /\ v_cur v' = v_cur v ++ [k]))).
    assert (S0 : same v0) by (do 5 (split; [reflexivity|]); split; [exact Hl|left; reflexivity]).
    assert (HQ : forall v', same v' -> Q tt (after_movement v') /\ Q tt (abort_mode v')).
    { intros v' [H1 [H2 [H3 [H4 [H5 [H6 H7]]]]]]. apply H; assumption. }
    apply vk_mono with (Q := fun (a : option (N * cmove)) v' =>
        match a with None => Q tt v' | Some _ => same v' end).
    - assert (Ha : vk (normal_mode_abort E ;;; ret (@None (N * cmove))) v0
                 (fun a v' => match a with None => Q tt v' | Some _ => same v' end)).
      { apply vk_bind, vk_abort, vk_ret. apply HQ. exact S0. }
      assert (Hs : forall c mv, vk (ret (Some (c, mv))) v0
                 (fun (a : option (N * cmove)) v' => match a with None => Q tt v' | Some _ => same v' end)).
      { intros c mv. apply vk_ret. exact S0. }
      assert (Hn : direct m -> vk (match k with
          | KChar c => modk (vset_lcm (Some (c, m))) ;;; push_cur k ;;; ret (Some (c, m))
          | _ => normal_mode_abort E ;;; ret None end) v0
                 (fun a v' => match a with None => Q tt v' | Some _ => same v' end)).
      { intros N1. destruct k; try exact Ha. unfold push_cur. vks.
        do 5 (split; [reflexivity|]). split; [intros ? ? [= _ <-]; exact N1|].
        right. split; [exact N1|]. exists c. split; reflexivity. }
      change (v_lcm v) with (v_lcm v0) in *. change (lcm_ok v0) in Hl. unfold lcm_ok in Hl.
      destruct m; destruct (v_lcm v0) as [[c0 m0]|]; try exact Ha; try apply Hs;
        try exact (Hn ltac:(split; discriminate)).
      destruct (Hl c0 m0 eq_refl). destruct m0; try apply Hs; congruence.
    - intros [[c mv]|] v' Hv'; [|apply vk_ret; exact Hv']. apply vk_bind, vk_gete. intro s.
      apply vk_bind. apply vk_lift; [auto with nf|]. intro b. cbv zeta.
      assert (Hgo : forall (r : res (option nat)) (adj : nat -> nat) mt, vk ((o <- liftr r ;;
          match o with Some i => lift (move_cursor_to E (adj i)) | None => ret tt end) ;;;
          ret mt) v' (fun (_ : mtype) v2 => v2 = v')).
      { intros r adj mt. vks. destruct a; vks; reflexivity. }
      assert (Hp : forall mt, vk (pop_mode_after_movement E mt) v' Q).
      { intro mt. apply vk_pop_am. apply HQ. exact Hv'. }
      apply vk_bind. destruct mv; try (eapply vk_mono; [apply Hgo|]; intros mt v2 ->; apply Hp); apply vk_pan.
  Qed.
End Modes2.
