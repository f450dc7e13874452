(** What becomes of the count of the Vi key map (C71). *)
From Verif Require Import Base BufferModel UtilModel HistoryModel EditorState EditorModel KeymapModel ViModel
  MonadLemmas EditorOps ViSpec ViChangeSpec.
Local Open Scope monad_scope.

Definition vok {A} (m : MV A) (v : vi) (Q : A -> vi -> Prop) : Prop := forall s, ok m (v, s) (fun a y => Q a (fst y)).

Lemma vok_bind : forall {A B} (m : MV A) (k : A -> MV B) v (Q : B -> vi -> Prop),
  vok m v (fun a v' => vok (k a) v' Q) -> vok (bind m k) v Q.
Proof.
  intros A B m k v Q H s. specialize (H s). unfold ok, bind in *. destruct (m (v, s)) as [a [v' s']| | |]; auto. exact (H s').
Qed.
Lemma vok_mono : forall {A} (m : MV A) v (Q Q' : A -> vi -> Prop), vok m v Q -> (forall a v', Q a v' -> Q' a v') -> vok m v Q'.
Proof. intros A m v Q Q' H HQ s. specialize (H s). unfold ok in *. destruct (m (v, s)) as [a [v' s']| | |]; auto. Qed.
Lemma vok_ret : forall {A} (a : A) v (Q : A -> vi -> Prop), Q a v -> vok (ret a) v Q.
Proof. intros A a v Q H s. exact H. Qed.
Lemma vok_lift : forall {A} (m : ME A) v (Q : A -> vi -> Prop), (forall a, Q a v) -> vok (lift m) v Q.
Proof. intros A m v Q H s. unfold ok, lift. destruct (m s); auto. Qed.
Lemma vok_mod_ed : forall f v (Q : unit -> vi -> Prop), Q tt v -> vok (mod_ed f) v Q.
Proof. intros f v Q H s. exact H. Qed.
Lemma vok_modk : forall f v (Q : unit -> vi -> Prop), Q tt (f v) -> vok (modk f) v Q.
Proof. intros f v Q H s. exact H. Qed.
Lemma vok_getk : forall v (Q : vi -> vi -> Prop), Q v v -> vok getk v Q.
Proof. intros v Q H s. exact H. Qed.
Lemma vok_gete : forall v (Q : ed -> vi -> Prop), (forall s, Q s v) -> vok gete v Q.
Proof. intros v Q H s. exact (H s). Qed.
Lemma vok_liftr : forall {A} (r : res A) v (Q : A -> vi -> Prop), (forall a, Q a v) -> vok (liftr r) v Q.
Proof. intros A [a|p] v Q H s; [exact (H a)|exact I]. Qed.
Lemma vok_pan : forall {A} p v (Q : A -> vi -> Prop), vok (pan p) v Q.
Proof. intros A p v Q s. exact I. Qed.
Lemma vok_mfor : forall {A} (l : list A) (f : A -> MV unit) v, (forall a, vok (f a) v (fun _ v' => v' = v)) ->
  vok (mfor l f) v (fun _ v' => v' = v).
Proof.
  intros A l f v H. induction l as [|a l IH]; [apply vok_ret; reflexivity|]. cbn [mfor]. apply vok_bind.
  eapply vok_mono; [apply H|]. cbv beta. intros _ v' ->. exact IH.
Qed.
Lemma vok_any : forall {A} (m : MV A) v, vok m v (fun _ _ => True).
Proof. intros A m v s. unfold ok. destruct (m (v, s)) as [a [v' s']| | |]; exact I. Qed.
Lemma vok_seq : forall {A B} (m : MV A) (m2 : MV B) v (Q : B -> vi -> Prop), (forall v', vok m2 v' Q) -> vok (m ;;; m2) v Q.
Proof. intros A B m m2 v Q H. apply vok_bind. eapply vok_mono; [apply vok_any|]. cbv beta. intros _ v' _. apply H. Qed.

Lemma vok_ploop : forall (m : ME bool) p v, vok (ploop p (lift m)) v (fun _ v' => v' = v).
Proof.
  intros m p v. induction p as [p IH|p IH|]; cbn [ploop].
  - apply vok_bind, vok_lift. intros [|]; [|apply vok_ret; reflexivity].
    apply vok_bind. eapply vok_mono; [apply IH|]. cbv beta. intros [|] v' ->; [apply IH|apply vok_ret; reflexivity].
  - apply vok_bind. eapply vok_mono; [apply IH|]. cbv beta. intros [|] v' ->; [apply IH|apply vok_ret; reflexivity].
  - apply vok_lift. reflexivity.
Qed.
Lemma vok_Nloop : forall (m : ME bool) n v (Q : unit -> vi -> Prop), Q tt v -> vok (Nloop n (lift m)) v Q.
Proof.
  intros m [|p] v Q H; cbn [Nloop]; [apply vok_ret; exact H|]. apply vok_bind.
  eapply vok_mono; [apply vok_ploop|]. cbv beta. intros _ v' ->. apply vok_ret. exact H.
Qed.
Lemma vok_when : forall b (m : MV unit) v (Q : unit -> vi -> Prop), (b = true -> vok m v Q) -> (b = false -> Q tt v) -> vok (when b m) v Q.
Proof. intros [|] m v Q H1 H2; [apply H1; reflexivity|apply vok_ret, H2; reflexivity]. Qed.

Lemma vok_set_editor_mode : forall E v (Q : unit -> vi -> Prop), Q tt v -> vok (set_editor_mode E) v Q.
Proof.
  intros E v Q H. unfold set_editor_mode. apply vok_bind, vok_getk.
  destruct (vmode_of v); try (apply vok_ret; exact H); apply vok_bind, vok_mod_ed, vok_lift; intros []; exact H.
Qed.
Lemma vok_buf_mut : forall f v (Q : unit -> vi -> Prop), Q tt v -> vok (buf_mut f) v Q.
Proof. intros f v Q H. apply vok_lift. intros []. exact H. Qed.
Lemma vok_preserve : forall E m v (Q : unit -> vi -> Prop),
  Q tt (vset_stack (m :: v_stack v) (vset_reset (negb (is_insert m)) v)) -> vok (set_mode_preserve_last E m) v Q.
Proof.
  intros E m v Q H. unfold set_mode_preserve_last. apply vok_bind, vok_mod_ed. apply vok_bind, vok_modk.
  apply vok_bind, vok_set_editor_mode. apply vok_when; intros _; [apply vok_buf_mut|]; exact H.
Qed.
Lemma vok_set_mode : forall E m v, vok (set_mode E m) v (fun _ v' => vmode_of v' = m).
Proof.
  intros E m v. unfold set_mode. apply vok_bind, vok_preserve. apply vok_when; intros _; [apply vok_modk|]; reflexivity.
Qed.
Lemma vpop_count : forall v, v_count (snd (vpop v)) = v_count v.
Proof. intros v. unfold vpop. destruct (v_stack v); reflexivity. Qed.
Lemma vpop_mode : forall v, fst (vpop v) = vmode_of v.
Proof. intros v. unfold vpop, vmode_of. destruct (v_stack v); reflexivity. Qed.
Lemma vok_pop_mode : forall E v, vok (pop_mode E) v (fun _ v' => v_count v' = v_count v).
Proof.
  intros E v. unfold pop_mode. apply vok_bind, vok_getk. pose proof (vpop_count v) as H. destruct (vpop v) as [m v1].
  cbn [snd] in H. apply vok_bind, vok_modk. apply vok_bind, vok_mod_ed. apply vok_bind.
  assert (X : vok (when (is_tilde m) (fun st : vi * ed =>
                match lift (display E) st with OErr _ _ => OPanic PUnwrap | o => o end) ;;; set_editor_mode E)
              (vset_reset (negb (is_insert (vmode_of v1))) v1) (fun _ v' => v_count v' = v_count v)).
  { apply vok_bind. apply vok_when; intros _; [|apply vok_set_editor_mode; exact H].
    intros s. unfold ok, lift. cbn [fst snd]. destruct (display E s); auto.
    apply vok_set_editor_mode. exact H. }
  apply vok_when; intros _; [apply vok_buf_mut|]; exact X.
Qed.

(** A movement ends with no count when it started a command. *)
Definition used (v : vi) : Prop := v_count v = 0%N \/ vmode_of v = MNormal \/ exists st, vmode_of v = MDelete st.
Lemma vok_pop_after : forall E mt v, used v -> vok (pop_mode_after_movement E mt) v (fun _ v' => v_count v' = 0%N).
Proof.
  intros E mt v U. unfold pop_mode_after_movement. apply vok_bind, vok_getk.
  pose proof (vpop_count v) as H. pose proof (vpop_mode v) as M. destruct (vpop v) as [m v1]. cbn [fst snd] in H, M.
  destruct (match vmode_of v1 with MDelete _ => vpop v1 | _ => (m, v1) end) as [last v2] eqn:L.
  assert (H2 : v_count v2 = v_count v).
  { destruct (vmode_of v1); try (injection L as <- <-; exact H). pose proof (vpop_count v1) as H2. rewrite L in H2. cbn [snd] in H2. congruence. }
  assert (HL : v_count v = 0%N \/ m = MNormal \/ exists st, last = MDelete st).
  { destruct U as [U|[U|[st U]]]; [left; exact U|right; left; congruence|right; right].
    pose proof (vpop_mode v1) as M1. destruct (vmode_of v1) eqn:E1; try (injection L as <- <-; exists st; congruence).
    rewrite L in M1. cbn [fst] in M1. exists start. exact M1. }
  apply vok_bind, vok_modk. apply vok_bind, vok_mod_ed. apply vok_bind.
  assert (X : forall v', v_count v' = 0%N \/ m = MNormal ->
              vok (when (is_normal m) (modk (vset_count 0)) ;;; set_editor_mode E) v' (fun _ v' => v_count v' = 0%N)).
  { intros v' HX. apply vok_bind. apply vok_when; intros HN; [apply vok_modk|]; apply vok_set_editor_mode; [reflexivity|].
    destruct HX as [HX| ->]; [exact HX|discriminate]. }
  assert (Y : v_count v = 0%N \/ m = MNormal -> vok (when (is_normal m) (modk (vset_count 0)) ;;; set_editor_mode E)
              (vset_reset (negb (is_insert (vmode_of v2))) v2) (fun _ v' => v_count v' = 0%N)).
  { intros [HY|HY]; apply X; [left; cbn; congruence|right; exact HY]. }
  destruct last; try (apply vok_ret, Y; destruct HL as [HL|[HL|[st' HL]]]; [left|right|discriminate]; exact HL).
  apply vok_bind. apply vok_lift. intros []. apply vok_modk. apply X. left. reflexivity.
Qed.
Lemma vok_abort : forall E v, vok (normal_mode_abort E) v (fun _ v' => v_count v' = 0%N).
Proof. intros E v. unfold normal_mode_abort. apply vok_bind, vok_modk. apply vok_bind, vok_mod_ed. apply vok_set_editor_mode. reflexivity. Qed.

(** Back in the normal mode there is no count. *)
Definition spent (v : vi) : Prop := vmode_of v = MNormal -> v_count v = 0%N.

Lemma vok_zero : forall {A} (m : MV A) v, vok m v (fun _ v' => v_count v' = 0%N) -> vok m v (fun _ v' => spent v').
Proof. intros A m v H. eapply vok_mono; [exact H|]. cbv beta. intros a v' X _. exact X. Qed.
Lemma vok_into : forall E m v, m <> MNormal -> vok (set_mode E m) v (fun _ v' => spent v').
Proof. intros E m v H. eapply vok_mono; [apply vok_set_mode|]. cbv beta. intros a v' X Y. congruence. Qed.

Lemma vok_to_char : forall E k m v, vok (vi_move_to_char E k m) v (fun _ v' => v_count v' = 0%N).
Proof.
  intros E k m v. unfold vi_move_to_char. apply vok_bind, vok_getk. cbv zeta. apply vok_bind, vok_modk. apply vok_bind.
  apply (vok_mono _ _ (fun _ v' => v_count v' = 0%N)).
  - assert (A : vok (normal_mode_abort E ;;; ret (@None (char * cmove))) (vset_count 0 v) (fun _ v' => v_count v' = 0%N)).
    { apply vok_bind. eapply vok_mono; [apply vok_abort|]. cbv beta. intros _ v' X. apply vok_ret. exact X. }
    assert (B : forall c0, vok (modk (vset_lcm (Some (c0, m))) ;;; push_cur k ;;; ret (Some (c0, m))) (vset_count 0 v)
                  (fun _ v' => v_count v' = 0%N)).
    { intros c0. apply vok_bind, vok_modk. apply vok_bind. unfold push_cur. apply vok_modk, vok_ret. reflexivity. }
    destruct m, (v_lcm v) as [[c1 lm]|]; try destruct lm; destruct k;
      first [exact A | apply B | apply vok_ret; reflexivity | apply vok_pan].
  - cbv beta. intros [[c0 m0]|] v' Z; [|apply vok_ret; exact Z].
    apply vok_bind, vok_gete. intros s. apply vok_bind, vok_lift. intros b. apply vok_bind.
    apply (vok_mono _ _ (fun _ v2 => v_count v2 = 0%N)).
    + destruct m0; try apply vok_pan; apply vok_bind; apply vok_bind, vok_liftr; intros [i|];
        first [apply vok_lift; intros []; apply vok_ret; exact Z | apply vok_ret, vok_ret; exact Z].
    + cbv beta. intros mt v2 Z2. apply vok_pop_after. left. exact Z2.
Qed.
Lemma vok_mcr : forall v (Q : nat -> vi -> Prop), (forall n, Q n v) -> vok mcr v Q.
Proof. intros v Q H. unfold mcr. apply vok_bind, vok_getk. apply vok_bind, vok_gete. intros s. apply vok_liftr. exact H. Qed.

Ltac vmv := repeat match goal with
  | |- vok (bind getk _) _ _ => apply vok_bind, vok_getk; cbv beta zeta
  | |- vok (bind gete _) _ _ => apply vok_bind, vok_gete; intros ?
  | |- vok (bind mcr _) _ _ => apply vok_bind, vok_mcr; intros ?
  | |- vok (bind (lift _) _) _ _ => apply vok_bind, vok_lift; intros ?
  | |- vok (bind (modk _) _) _ _ => apply vok_bind, vok_modk
  | |- vok (bind (push_cur _) _) _ _ => apply vok_bind; unfold push_cur; apply vok_modk
  end.

(** A command of the normal mode, or a movement after [d] or [c]. *)
Lemma vok_normal : forall rec E k v, starts_command k = true -> used v ->
  vok (vi_normal rec E k) v (fun _ v' => spent v').
Proof.
  intros rec E k v HC U.
  assert (PA : forall mt, vok (pop_mode_after_movement E mt) v (fun _ v' => spent v')) by (intros mt; apply vok_zero, vok_pop_after, U).
  assert (INS : forall m0 : MV unit, (forall w, vmode_of w = MInsert -> vok m0 w (fun _ v' => spent v')) ->
    vok ((modk (vset_lastins (Some k)) ;;; set_mode E MInsert) ;;; m0) v (fun _ v' => spent v')).
  { intros m0 H. apply vok_bind. apply vok_bind, vok_modk. eapply vok_mono; [apply vok_set_mode|]. cbv beta. intros _ w X. apply H, X. }
  assert (INL : forall (m0 : ME unit), vok ((modk (vset_lastins (Some k)) ;;; set_mode E MInsert) ;;; lift m0) v (fun _ v' => spent v')).
  { intros m0. apply INS. intros w X. apply vok_lift. intros _ Y. congruence. }
  destruct k as [c|c|c| | | | | | | | | | |]; try discriminate HC; unfold vi_normal; cbv zeta.
  2, 3, 4, 5, 6: vmv; apply PA.
  2: vmv; apply vok_modk; intros _; reflexivity.
  2: apply vok_modk; intros _; reflexivity.
  cbn [starts_command] in HC. apply existsb_exists in HC as (c' & HI & HE). apply N.eqb_eq in HE. subst c'.
  vm_compute in HI.
  repeat (destruct HI as [<-|HI]; [
    repeat match goal with |- context [is_char ?c ?x] => let b := eval vm_compute in (is_char c x) in change (is_char c x) with b end;
    repeat match goal with |- context [(48 <=? ?c)%N && (?c <=? 57)%N] =>
      let b := eval vm_compute in ((48 <=? c)%N && (c <=? 57)%N) in change ((48 <=? c)%N && (c <=? 57)%N) with b end;
    cbn [orb andb]; cbv iota;
    try solve [ apply INL | vmv; apply PA | vmv; apply vok_into; discriminate | apply vok_into; discriminate
              | vmv; apply vok_modk; intros _; reflexivity | apply vok_zero, vok_to_char
              | vmv; apply vok_Nloop; intros _; reflexivity
              | vmv; apply vok_lift; intros _ _; reflexivity ] |]); try destruct HI.
  - apply INS. intros w _. vmv. apply vok_modk. intros _. reflexivity.
  - vmv. apply vok_bind, vok_preserve, vok_lift. intros _ X. discriminate X.
  - vmv. apply vok_seq. intros w. vmv. apply vok_seq. intros w'. apply vok_modk. intros _. reflexivity.
  - vmv. apply vok_seq. intros w. vmv. apply vok_seq. intros w'. apply vok_modk. intros _. reflexivity.
Qed.

Lemma vok_common : forall E k v (Q : unit -> vi -> Prop), Q tt v -> vok (vi_common E k) v Q.
Proof. intros E k v Q H. apply vok_lift. intros []. exact H. Qed.
Lemma vok_insert : forall rec E k v, vmode_of v = MInsert -> vok (vi_insert rec E k) v (fun _ v' => spent v').
Proof.
  intros rec E k v HM.
  assert (ST : forall w, vmode_of w = MInsert -> spent w) by (intros w H X; congruence).
  assert (ESC : vok (v <- getk ;;
    when (0 <? v_count v)%N (
      modk (vset_lcount (v_count v)) ;;;
      Nloop (v_count v - 1) (v <- getk ;; modk (vset_last []) ;;; mfor (v_last v) rec ;;; ret true) ;;;
      modk (vset_count 0)) ;;;
    lift (move_cursor_left E 1) ;;;
    pop_mode E) v (fun _ v' => spent v')).
  { apply vok_zero. vmv. apply vok_bind. apply (vok_mono _ _ (fun _ v' => v_count v' = 0%N)).
    - apply vok_when; intros H.
      + vmv. apply vok_seq. intros w. apply vok_modk. reflexivity.
      + apply N.ltb_ge in H. lia.
    - cbv beta. intros _ w Z. vmv. eapply vok_mono; [apply vok_pop_mode|]. cbv beta. intros _ w' Z'. congruence. }
  assert (IR : forall m : MV unit, (forall w, vmode_of w = MInsert -> vok m w (fun _ v' => spent v')) ->
            vok (insert_reset ;;; m) v (fun _ v' => spent v')).
  { intros m H. apply vok_bind. unfold insert_reset. vmv. apply vok_when; intros _; [|apply H, HM].
    apply vok_bind, vok_buf_mut. apply vok_bind, vok_buf_mut. apply vok_modk. apply H. exact HM. }
  assert (PL : forall j (m : MV unit) w, vmode_of w = MInsert -> (forall w, vmode_of w = MInsert -> vok m w (fun _ v' => spent v')) ->
            vok (push_last j ;;; m) w (fun _ v' => spent v')).
  { intros j m w HW H. apply vok_bind. unfold push_last. apply vok_modk. apply H. exact HW. }
  assert (CO : forall w, vmode_of w = MInsert -> vok (vi_common E k) w (fun _ v' => spent v')) by (intros w HW; apply vok_common, ST, HW).
  unfold vi_insert. cbv zeta. destruct k as [c|c|c| | | | | | | | | | |]; try (apply CO; exact HM).
  all: try solve
    [ apply IR; intros w HW; apply PL; [exact HW|]; intros w' HW'; apply vok_lift; intros _; apply ST, HW'
    | vmv; apply CO; exact HM
    | vmv; apply vok_bind, vok_buf_mut; vmv; apply vok_buf_mut, ST; exact HM
    | apply IR; intros w HW; apply PL; [exact HW|]; exact CO
    | exact ESC
    | destruct (is_char c "["); [exact ESC|apply CO, HM] ].
Qed.
Lemma vok_replace : forall E k v, vok (vi_replace E k) v (fun _ v' => spent v').
Proof. intros E k v. apply vok_zero. unfold vi_replace. apply vok_seq. intros w. apply vok_modk. reflexivity. Qed.
Lemma vok_finally : forall (m : MV unit) v, vok (finally m (vset_count 0)) v (fun _ v' => v_count v' = 0%N).
Proof. intros m v s. unfold ok, finally. destruct (m (v, s)) as [a [v' s']|e [v' s']|p|]; reflexivity || exact I. Qed.
Lemma vok_g : forall E k v, vok (vi_g E k) v (fun _ v' => spent v').
Proof.
  intros E k v. apply vok_zero. unfold vi_g. vmv.
  destruct (kis k "e"); [vmv; apply vok_finally|]. destruct (kis k "E"); [vmv; apply vok_finally|].
  apply vok_seq. intros w. apply vok_modk. reflexivity.
Qed.

(** A key that moves, after [d] or [c]. *)
Lemma moves_starts : forall k, is_movement_key k = true -> starts_command k = true \/ k = KHome \/ k = KEnd.
Proof.
  intros [c|c|c| | | | | | | | | | |] H; try discriminate H; auto.
  left. cbn [is_movement_key starts_command] in *. apply existsb_exists in H as (x & HI & HE). apply N.eqb_eq in HE. subst x.
  vm_compute in HI. repeat (destruct HI as [<-|HI]; [reflexivity|]). destruct HI.
Qed.
Lemma vok_delete : forall rec E k v st, vmode_of v = MDelete st -> vok (vi_delete_or_change rec E k) v (fun _ v' => spent v').
Proof.
  intros rec E k v st HM. unfold vi_delete_or_change. vmv.
  assert (ST : forall w, vmode_of w = vmode_of v -> spent w) by (intros w H X; congruence).
  destruct (is_movement_key k) eqn:HK; cbn [orb].
  - vmv. destruct (moves_starts k HK) as [HS|[->| ->]].
    + apply vok_normal; [exact HS|]. right. right. exists st. exact HM.
    + apply vok_common, ST. reflexivity.
    + apply vok_common, ST. reflexivity.
  - destruct (kis k "0" && (v_count v =? 0)%N) eqn:H0.
    + apply andb_true_iff in H0 as [H0 _]. destruct k as [c|c|c| | | | | | | | | | |]; try discriminate H0.
      cbn [kis] in H0. unfold is_char in H0. apply N.eqb_eq in H0. subst c. vmv.
      match goal with |- vok (vi_normal _ _ _) ?w _ => set (u := w) end.
      assert (HU : vmode_of u = MDelete st) by exact HM.
      unfold vi_normal. cbv zeta.
      repeat match goal with |- context [is_char ?c ?x] => let b := eval vm_compute in (is_char c x) in change (is_char c x) with b end.
      match goal with |- context [(48 <=? ?c)%N && (?c <=? 57)%N] =>
        let b := eval vm_compute in ((48 <=? c)%N && (c <=? 57)%N) in change ((48 <=? c)%N && (c <=? 57)%N) with b end.
      cbn [orb andb]. cbv iota. vmv. destruct (v_count u =? 0)%N.
      * vmv. apply vok_zero, vok_pop_after. right. right. exists st. exact HU.
      * apply vok_modk. intros X. change (vmode_of u = MNormal) in X. congruence.
    + destruct (match k with KChar c => ((48 <=? c) && (c <=? 57))%N | _ => false end) eqn:HD.
      * destruct k as [c|c|c| | | | | | | | | | |]; try discriminate HD.
        assert (HI : In c (map N.of_nat (seq 48 10))).
        { apply in_map_iff. exists (N.to_nat c). rewrite N2Nat.id. split; [reflexivity|]. apply in_seq.
          apply andb_true_iff in HD as [D1 D2]. apply N.leb_le in D1, D2. lia. }
        vm_compute in HI.
        assert (X : forall n, spent (vset_count n v)) by (intros n; apply ST; reflexivity).
        unfold vi_normal. cbv zeta.
        repeat (destruct HI as [<-|HI]; [
          repeat match goal with |- context [is_char ?c ?x] => let b := eval vm_compute in (is_char c x) in change (is_char c x) with b end;
          match goal with |- context [(48 <=? ?c)%N && (?c <=? 57)%N] =>
            let b := eval vm_compute in ((48 <=? c)%N && (c <=? 57)%N) in change ((48 <=? c)%N && (c <=? 57)%N) with b end;
          cbn [orb andb]; cbv iota; vmv; try (apply vok_modk; apply X) |]); [|destruct HI].
        destruct (v_count v =? 0)%N; [|apply vok_modk; apply X].
        vmv. apply vok_zero, vok_pop_after. right. right. exists st. exact HM.
      * match goal with |- vok (if ?b then _ else _) _ _ => destruct b end; [|apply vok_zero, vok_abort].
        apply vok_zero. vmv. eapply vok_mono; [apply vok_pop_mode|]. cbv beta. intros _ w X. exact X.
Qed.

(** Whatever key was handled: back in the normal mode there is no count, but for the keys the
    statement leaves out. *)
Lemma vok_core : forall f E k v, (vmode_of v = MNormal -> starts_command k = true) ->
  vok (vi_core_fuel f E k) v (fun _ v' => spent v').
Proof.
  intros [|f] E k v HC; cbn [vi_core_fuel]; [intros s; exact I|]. vmv. destruct (vmode_of v) eqn:HM.
  - apply vok_insert, HM.
  - apply vok_normal; [apply HC; reflexivity|]. right. left. exact HM.
  - apply vok_replace.
  - eapply vok_delete, HM.
  - apply vok_zero, vok_to_char.
  - apply vok_g.
  - apply vok_pan.
Qed.

Theorem count_used : forall E k v s d v' s',
  (vmode_of v = MNormal -> starts_command k = true /\ (k = KRight -> showing_autosuggestion s = false)) ->
  vi_key E k (v, s) = ORet d (v', s') -> vmode_of v' = MNormal -> v_count v' = 0%N.
Proof.
  intros E k v s d v' s' HC HR.
  assert (SAME : vmode_of v <> MNormal -> spent v) by (intros H X; contradiction).
  assert (OTH : forall j, (vmode_of v = MNormal -> starts_command j = true) ->
            vok (vi_core E j ;;; mod_ed skip_completions_hint ;;; ret false) v (fun _ w => spent w)).
  { intros j HJ. apply vok_bind. eapply vok_mono; [unfold vi_core; vmv; apply vok_core; exact HJ|].
    cbv beta. intros _ w HW. apply vok_bind, vok_mod_ed, vok_ret. exact HW. }
  assert (K : ok (vi_key E k) (v, s) (fun _ y => spent (fst y))).
  { unfold vi_key, handle_key. unfold ok at 1. unfold bind at 1. cbn [gete]. unfold bind at 1.
    destruct (cur_buf s) as [b|p]; [|exact I]. cbv zeta.
    match goal with |- match bind ?m ?r (v, s) with _ => _ end =>
      assert (X : ok m (v, s) (fun _ y => spent (fst y))) end.
    { destruct k as [c|c|c| | | | | | | | | | |];
        try (apply (OTH _); intros HN; exact (proj1 (HC HN))).
      - assert (Y : starts_command (KChar c) = false -> vmode_of v <> MNormal)
          by (intros HF HN; pose proof (proj1 (HC HN)); congruence).
        destruct (N.eqb_spec c c_tab) as [->|_].
        { refine ((_ : vok _ v (fun _ w => spent w)) s). vmv. apply vok_ret. apply SAME, Y. reflexivity. }
        destruct (N.eqb_spec c c_nl) as [->|_].
        { refine ((_ : vok _ v (fun _ w => spent w)) s). apply vok_lift. intros _. apply SAME, Y. reflexivity. }
        apply (OTH _). intros HN. exact (proj1 (HC HN)).
      - assert (Y : vmode_of v <> MNormal) by (intros HN; pose proof (proj1 (HC HN)); discriminate).
        refine ((_ : vok _ v (fun _ w => spent w)) s).
        destruct (is_char c "h"); [apply OTH; intros HN; contradiction|].
        destruct (is_char c "c"); [vmv; intros s0; exact I|].
        match goal with |- vok (if ?b then _ else _) _ _ => destruct b end; [vmv; intros s0; exact I|].
        match goal with |- vok (if ?b then _ else _) _ _ => destruct b end; [vmv; apply vok_ret, SAME, Y|].
        destruct (is_char c "r"); [vmv; apply vok_ret, SAME, Y|].
        destruct (is_char c "s"); [vmv; apply vok_ret, SAME, Y|].
        apply OTH. intros HN. contradiction.
      - destruct (showing_autosuggestion s) eqn:HS; [|apply (OTH _); intros HN; exact (proj1 (HC HN))].
        assert (Y : vmode_of v <> MNormal) by (intros HN; pose proof (proj2 (HC HN) eq_refl); discriminate).
        unfold ok. unfold bind at 1. destruct (cursor_is_at_end_of_line s) as [[|]|p]; [| |exact I].
        + refine ((_ : vok _ v (fun _ w => spent w)) s). vmv. apply vok_ret, SAME, Y.
        + apply (OTH _). intros HN. contradiction. }
    unfold ok in X. unfold bind at 1. match goal with |- match match ?m (v, s) with _ => _ end with _ => _ end =>
      destruct (m (v, s)) as [a y| | |] end; try exact I. destruct (e_wok E); [exact X|exact I]. }
  unfold ok in K. rewrite HR in K. exact K.
Qed.
