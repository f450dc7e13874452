(** What Vi commands do to the line, outside a search. *)
From Verif Require Import Base Utf8 BufferModel UtilModel HistoryModel EditorState EditorModel
  KeymapModel ViModel MonadLemmas EditorLemmas CursorProofs Lemmas BufferProofs EditorSpec EditorProofs
  EditorOps ViSpec ViEffects ViModes ViRepeat ViMotion.
Local Open Scope monad_scope.

(** A normal return satisfies [Q]. *)
Definition okv {A} (m : MV A) (v : vi) (s : ed) (Q : A -> vi -> ed -> Prop) : Prop :=
  match m (v, s) with ORet a (v', s') => Q a v' s' | _ => True end.

Section OKV.
  Context {A : Type}.
  Implicit Types (Q : A -> vi -> ed -> Prop).
  Lemma okv_mono : forall (m : MV A) v s Q Q',
    okv m v s Q -> (forall a v' s', Q a v' s' -> Q' a v' s') -> okv m v s Q'.
  Proof. intros m v s Q Q' H HQ. unfold okv in *. destruct (m (v, s)) as [a [v' s']| | |]; auto. Qed.
  Lemma okv_bind : forall {B} (m : MV B) (k : B -> MV A) v s Q,
    okv m v s (fun b v' s' => okv (k b) v' s' Q) -> okv (bind m k) v s Q.
  Proof. intros B m k v s Q H. unfold okv, bind in *. destruct (m (v, s)) as [a [v' s']| | |]; auto. Qed.
  Lemma okv_ret : forall (a : A) v s Q, Q a v s -> okv (ret a) v s Q.
  Proof. intros. exact H. Qed.
  Lemma okv_pan : forall p v s Q, okv (@pan _ A p) v s Q.
  Proof. intros. exact I. Qed.
  Lemma okv_fail : forall e v s Q, okv (@fail _ A e) v s Q.
  Proof. intros. exact I. Qed.
  Lemma okv_liftr : forall (r : res A) v s Q, (forall a, r = Val a -> Q a v s) -> okv (liftr r) v s Q.
  Proof. intros r v s Q H. unfold okv, liftr. destruct r; [exact (H a eq_refl)|exact I]. Qed.
  Lemma okv_lift : forall (m : ME A) v s Q, ok m s (fun a s' => Q a v s') -> okv (lift m) v s Q.
  Proof. intros m v s Q H. unfold ok, okv, lift in *. destruct (m s); auto. Qed.
  Lemma okv_getk : forall (k : vi -> MV A) v s Q, okv (k v) v s Q -> okv (bind getk k) v s Q.
  Proof. intros k v s Q H. exact H. Qed.
  Lemma okv_gete : forall (k : ed -> MV A) v s Q, okv (k s) v s Q -> okv (bind gete k) v s Q.
  Proof. intros k v s Q H. exact H. Qed.
  Lemma okv_modk : forall f (k : unit -> MV A) v s Q, okv (k tt) (f v) s Q -> okv (bind (modk f) k) v s Q.
  Proof. intros f k v s Q H. exact H. Qed.
  Lemma okv_mod_ed : forall f (k : unit -> MV A) v s Q, okv (k tt) v (f s) Q -> okv (bind (mod_ed f) k) v s Q.
  Proof. intros f k v s Q H. exact H. Qed.
End OKV.

Lemma okv_seq : forall {A B} (m : MV B) (k : B -> MV A) v s (P : B -> vi -> ed -> Prop) Q,
  okv m v s P -> (forall b v' s', P b v' s' -> okv (k b) v' s' Q) -> okv (bind m k) v s Q.
Proof. intros A B m k v s P Q H H'. apply okv_bind. eapply okv_mono; eauto. Qed.
Lemma okv_modk1 : forall f v s (Q : unit -> vi -> ed -> Prop), Q tt (f v) s -> okv (modk f) v s Q.
Proof. intros. exact H. Qed.
Lemma okv_of : forall {A} (m : MV A) v s (Q : A -> vi -> ed -> Prop) a v' s',
  okv m v s Q -> m (v, s) = ORet a (v', s') -> Q a v' s'.
Proof. intros A m v s Q a v' s' H E. unfold okv in H. rewrite E in H. exact H. Qed.
(** Running an editor method on a known line. *)
Lemma okv_lands : forall {A B} (m : ME A) (k : A -> MV B) v s (P : A -> ed -> Prop) Q,
  ok m s P -> (forall a s', P a s' -> okv (k a) v s' Q) -> okv (bind (lift m) k) v s Q.
Proof.
  intros A B m k v s P Q H H'. apply okv_bind, okv_lift. eapply ok_mono; [exact H|]. exact H'.
Qed.

(** * Keys *)

Lemma okv_handle : forall E k v s (Q : vi -> ed -> Prop), passes k ->
  okv (vi_core E k) v s (fun _ v' s' => Q v' (set_hint None s')) ->
  okv (handle_key vi_core E k) v s (fun d v' s' => d = false /\ Q v' s').
Proof.
  intros E k v s Q Hp HC. unfold handle_key. apply okv_gete. apply okv_bind.
  destruct (cur_buf s) as [b|p]; [|exact I].
  assert (Hother : okv (vi_core E k ;;; mod_ed skip_completions_hint ;;; ret false) v s
     (fun d v' s' => okv (if e_wok E then ret d else fail EOther) v' s' (fun d v' s' => d = false /\ Q v' s'))).
  { apply okv_bind. eapply okv_mono; [exact HC|]. intros ? v' s' Hv'. apply okv_mod_ed, okv_ret.
    destruct (e_wok E); [apply okv_ret; auto|apply okv_fail]. }
  unfold okv at 1. cbv zeta.
  destruct k as [x|x|x| | | | | | | | | | |]; try contradiction; try (apply okv_bind; exact Hother).
  destruct Hp as [P1 P2]. apply N.eqb_neq in P1, P2. rewrite P1, P2. apply okv_bind; exact Hother.
Qed.

(** Typing [ks], in surroundings satisfying [P]. *)
Definition typing (P : env -> Prop) (ks : list key) (v : vi) (s : ed) (Q : vi -> ed -> Prop) : Prop :=
  forall l, map snd l = ks -> Forall (fun x => P (fst x)) l ->
    okv (run_keys vi_core l) v s (fun d v' s' => d = false /\ Q v' s').

Lemma typing_nil : forall P v s (Q : vi -> ed -> Prop), Q v s -> typing P [] v s Q.
Proof.
  intros P v s Q H l Hl _. apply map_eq_nil in Hl. subst l. cbn [run_keys]. apply okv_ret. auto.
Qed.
Lemma typing_cons : forall (P : env -> Prop) k ks v s Q, passes k ->
  (forall E, P E -> okv (vi_core E k) v s (fun _ v' s' => typing P ks v' (set_hint None s') Q)) ->
  typing P (k :: ks) v s Q.
Proof.
  intros P k ks v s Q Hp H l Hl HP. destruct l as [|[E k'] l]; [discriminate|]. cbn [map snd] in Hl.
  injection Hl as -> Hl. inversion HP; subst. cbn [run_keys]. eapply okv_seq.
  - apply (okv_handle E k v s (fun v' s' => okv (run_keys vi_core l) v' s' (fun d v' s' => d = false /\ Q v' s')) Hp).
    eapply okv_mono; [apply H; assumption|]. intros ? v' s' Ht. apply Ht; auto.
  - intros d v' s' [-> Ht]. exact Ht.
Qed.
Lemma typing_app : forall P ks ks' v s Q,
  typing P ks v s (fun v' s' => typing P ks' v' s' Q) -> typing P (ks ++ ks') v s Q.
Proof.
  intros P ks ks' v s Q H l Hl HP. apply map_eq_app in Hl. destruct Hl as [l1 [l2 [-> [H1 H2]]]].
  apply Forall_app in HP. destruct HP as [P1 P2].
  unfold okv. rewrite run_keys_app. specialize (H l1 H1 P1). unfold okv in H. unfold bind.
  destruct (run_keys vi_core l1 (v, s)) as [d [v' s']| | |]; auto. destruct H as [-> H]. exact (H l2 H2 P2).
Qed.
Lemma typing_mono : forall P ks v s (Q Q' : vi -> ed -> Prop),
  typing P ks v s Q -> (forall v' s', Q v' s' -> Q' v' s') -> typing P ks v s Q'.
Proof.
  intros P ks v s Q Q' H HQ l Hl HP. eapply okv_mono; [exact (H l Hl HP)|]. intros d v' s' [H1 H2]. auto.
Qed.

(** One key handled in a given mode. *)
Lemma okv_core : forall E k v s Q,
  (forall rec, okv (match vmode_of v with
    | MNormal => vi_normal rec E k
    | MInsert => vi_insert rec E k
    | MReplace => vi_replace E k
    | MDelete _ => vi_delete_or_change rec E k
    | MMoveToChar m => vi_move_to_char E k m
    | MG => vi_g E k
    | MTilde => pan PUnreach
    end) v s Q) -> okv (vi_core E k) v s Q.
Proof.
  intros E k v s Q H. unfold vi_core. apply okv_getk.
  replace (vi_fuel v) with (S (3 * (length (v_last v) + length (v_cur v)) + 9)) by (unfold vi_fuel; lia).
  cbn [vi_core_fuel]. apply okv_getk. apply H.
Qed.

(** * Modes *)

Lemma view_vi_mode : forall m s b c e, view s b c e -> view (set_vi_mode m s) b c e.
Proof.
  intros m s b c e V. unfold set_vi_mode. destruct (pr_vi (ed_prompt s)); [|exact V]. apply view_prompt. exact V.
Qed.

Lemma okv_set_editor_mode : forall E v s b c e,
  vmode_of v = MNormal \/ vmode_of v = MInsert -> view s b c e ->
  okv (set_editor_mode E) v s (fun _ v' s' => v' = v /\ view s' b (clamp_cursor e (length (data b)) c) e).
Proof.
  intros E v s b c e Hm V. unfold set_editor_mode. apply okv_getk.
  destruct Hm as [-> | ->]; apply okv_mod_ed; apply okv_lift;
    (eapply ok_mono; [apply ok_display, view_vi_mode; exact V|]); intros ? s' [H _]; auto.
Qed.

Definition quiet (m : vmode) : Prop :=
  match m with MDelete _ | MMoveToChar _ | MG | MReplace => True | _ => False end.
Lemma okv_set_mode : forall E m v s (Q : unit -> vi -> ed -> Prop), quiet m ->
  Q tt (vset_stack (m :: v_stack v) (vset_reset true v)) (set_noeol false s) ->
  okv (set_mode E m) v s Q.
Proof.
  intros E m v s Q Hm H. unfold set_mode, set_mode_preserve_last.
  destruct m; try contradiction; exact H.
Qed.

(** A mode on top of which a motion is completed. *)
Definition pending (m : vmode) : Prop := m = MG \/ exists x, m = MMoveToChar x.

(** After a motion given in normal mode. *)
Lemma okv_after_plain : forall E mt v s b c e, view s b c e ->
  v_stack v = [] \/ (exists m, pending m /\ v_stack v = [m]) ->
  okv (pop_mode_after_movement E mt) v s (fun _ v' s' =>
    v_stack v' = [] /\ (v_count v' = 0%N \/ (v_stack v <> [] /\ v_count v' = v_count v)) /\
    v_lcm v' = v_lcm v /\ view s' b (clamp_cursor true (length (data b)) c) true).
Proof.
  intros E mt v s b c e V Hv. unfold pop_mode_after_movement. apply okv_getk.
  destruct Hv as [Hv|[m [Hq Hv]]].
  - assert (vpop v = (MNormal, v)) as -> by (unfold vpop; rewrite Hv; reflexivity).
    assert (vmode_of v = MNormal) as Hm by (unfold vmode_of; rewrite Hv; reflexivity).
    rewrite Hm. cbv beta iota zeta. apply okv_modk, okv_mod_ed. apply okv_bind, okv_ret.
    apply okv_bind. cbn [is_normal when]. apply okv_modk1.
    eapply okv_mono; [eapply okv_set_editor_mode; [left; exact Hm|eapply view_noeol; exact V]|].
    intros ? v' s' [-> H]. rewrite ?Hm in H. split; [exact Hv|]. split; [auto|]. split; [reflexivity|exact H].
  - assert (vpop v = (m, vset_stack [] v)) as -> by (unfold vpop; rewrite Hv; reflexivity).
    change (vmode_of (vset_stack [] v)) with MNormal. cbv beta iota zeta.
    apply okv_modk, okv_mod_ed. apply okv_bind.
    destruct Hq as [->|[x ->]]; apply okv_ret; apply okv_bind; apply okv_ret;
      (eapply okv_mono; [eapply okv_set_editor_mode; [left; reflexivity|eapply view_noeol; exact V]|]);
      intros ? v' s' [-> H]; (split; [reflexivity|]);
      (split; [right; split; [rewrite Hv; discriminate|reflexivity]|auto]).
Qed.

(** After a motion that deletes. *)
Definition inclusive (mt : mtype) : nat := match mt with Inclusive => 1 | Exclusive => 0 end.
Lemma okv_after_delete : forall E mt v s b c e st l, base l -> view s b c e ->
  v_stack v = MDelete st :: l \/ (exists m, pending m /\ v_stack v = m :: MDelete st :: l) ->
  okv (pop_mode_after_movement E mt) v s (fun _ v' s' => exists a m r,
    data b = a ++ m ++ r /\ length a = Nat.min c st /\
    length a + length m = Nat.max c st + inclusive mt /\
    v_stack v' = l /\ v_count v' = 0%N /\ v_sec v' = 0%N /\ v_lcm v' = v_lcm v /\
    view s' (cut b a m r) (clamp_cursor (is_normal (vmode_of v')) (length (a ++ r)) (length a))
         (is_normal (vmode_of v')) /\
    v_reset v' = negb (is_insert (vmode_of v'))).
Proof.
  intros E mt v s b c e st l Hb V Hv. unfold pop_mode_after_movement. apply okv_getk.
  set (v2 := vset_stack l v).
  assert (Hm : vmode_of v2 = MNormal \/ vmode_of v2 = MInsert).
  { unfold v2, vmode_of. cbn [v_stack vset_stack]. destruct Hb as [->| ->]; auto. }
  assert (Hpop : exists orig, is_normal orig = false /\
    (let '(original, v1) := vpop v in
     let '(last, v2) := match vmode_of v1 with MDelete _ => vpop v1 | _ => (original, v1) end in
     (original, last, v2)) = (orig, MDelete st, v2)).
  { unfold vpop at 1. destruct Hv as [->|[m [Hq ->]]].
    - exists (MDelete st). split; [reflexivity|]. fold v2. destruct Hm as [-> | ->]; reflexivity.
    - exists m. split; [destruct Hq as [->|[x ->]]; reflexivity|].
      unfold vmode_of. cbn [v_stack vset_stack]. reflexivity. }
  destruct Hpop as [orig [Ho Hpop]].
  destruct (vpop v) as [original v1].
  destruct (match vmode_of v1 with MDelete _ => vpop v1 | _ => (original, v1) end) as [last v2'].
  injection Hpop as -> -> ->.
  assert (Hl : v_stack v2 = l) by reflexivity. assert (Hlcm : v_lcm v2 = v_lcm v) by reflexivity. clearbody v2.
  apply okv_modk, okv_mod_ed. rewrite Ho. cbn [when].
  pose proof (view_noeol (is_normal (vmode_of v2)) _ _ _ _ V) as V1.
  assert (Hdel : ok (match mt with Exclusive => delete_until E st | Inclusive => delete_until_inclusive E st end)
    (set_noeol (is_normal (vmode_of v2)) s) (fun _ s' => exists a m r,
      data b = a ++ m ++ r /\ length a = Nat.min c st /\
      length a + length m = Nat.max c st + inclusive mt /\
      view s' (cut b a m r) (clamp_cursor (is_normal (vmode_of v2)) (length (a ++ r)) (length a))
         (is_normal (vmode_of v2)))).
  { destruct mt.
    - eapply ok_mono; [apply (ok_delete_until_inc E st _ _ _ _ V1)|].
      intros ? s' [a [m [r [H1 [H2 [H3 [H4 _]]]]]]]. exists a, m, r. cbn [inclusive].
      split; [exact H1|]. split; [exact H2|]. split; [lia|exact H4].
    - eapply ok_mono; [apply (ok_delete_until E st _ _ _ _ V1)|].
      intros ? s' [a [m [r [H1 [H2 [H3 [H4 _]]]]]]]. exists a, m, r. cbn [inclusive].
      split; [exact H1|]. split; [exact H2|]. split; [lia|exact H4]. }
  apply okv_bind. eapply okv_lands; [exact Hdel|]. intros ? s' [a [m [r [H1 [H2 [H3 H4]]]]]].
  apply okv_modk1. apply okv_bind, okv_ret. eapply okv_mono.
  - eapply okv_set_editor_mode; [|exact H4]. exact Hm.
  - intros ? v' s2 [-> H5]. exists a, m, r. split; [exact H1|]. split; [exact H2|]. split; [exact H3|].
    split; [exact Hl|]. do 2 (split; [reflexivity|]). split; [exact Hlcm|].
    unfold cut in H5 at 2. cbn [data] in H5. rewrite clamp_idem in H5. split; [exact H5|reflexivity].
Qed.

(** * Counts *)

Lemma okv_digit : forall E d v s (Q : unit -> vi -> ed -> Prop), digit d ->
  vmode_of v = MNormal \/ (exists st, vmode_of v = MDelete st) -> (d = 48%N -> v_count v <> 0%N) ->
  Q tt (vset_count (sat (sat (v_count v * 10) + (d - 48))) v) s ->
  okv (vi_core E (KChar d)) v s Q.
Proof.
  intros E d v s Q Hd Hm Hz HQ. apply okv_core. intro rec.
  assert (Hn : okv (vi_normal rec E (KChar d)) v s Q).
  { assert (H0 : is_char d "0" && (v_count v =? 0)%N = false).
    { apply andb_false_iff. unfold is_char. destruct (N.eqb_spec d (ch "0")) as [->|]; [|left; reflexivity].
      right. apply N.eqb_neq. apply Hz. reflexivity. }
    assert (Hr : ((48 <=? d) && (d <=? 57))%N = true).
    { apply andb_true_iff. destruct Hd. split; apply N.leb_le; lia. }
    assert (Hnc : forall x, ((48 <=? ch x) && (ch x <=? 57))%N = false -> is_char d x = false).
    { intros x Hx. apply N.eqb_neq. intros ->. congruence. }
    unfold vi_normal. rewrite Hr.
    repeat match goal with
    | |- context [is_char d ?x] =>
      lazymatch x with "0"%string => fail | _ => rewrite (Hnc x eq_refl) end
    end.
    cbn [orb]. cbv iota.
    apply okv_getk. rewrite H0. exact HQ. }
  destruct Hm as [-> |[st ->]]; [exact Hn|].
  unfold vi_delete_or_change. apply okv_getk.
  assert (Hmk : is_movement_key (KChar d) = false).
  { unfold is_movement_key. apply not_true_is_false. intro H. apply existsb_exists in H.
    destruct H as [x [H1 H2]]. apply N.eqb_eq in H2. subst x. destruct Hd as [D1 D2].
    cbn [str In] in H1. repeat destruct H1 as [H1|H1]; try (vm_compute in H1; subst d; lia). exact H1. }
  rewrite Hmk. cbn [orb].
  assert (Hk : kis (KChar d) "0" && (v_count v =? 0)%N = false).
  { apply andb_false_iff. cbn [kis]. unfold is_char. destruct (N.eqb_spec d (ch "0")) as [->|]; [|left; reflexivity].
    right. apply N.eqb_neq. apply Hz. reflexivity. }
  rewrite Hk.
  assert (Hr : ((48 <=? d) && (d <=? 57))%N = true).
  { apply andb_true_iff. destruct Hd. split; apply N.leb_le; lia. }
  rewrite Hr. exact Hn.
Qed.

Lemma vset_count_2 : forall m n v, vset_count m (vset_count n v) = vset_count m v.
Proof. reflexivity. Qed.
Lemma sat_step : forall m x, sat (sat (sat m * 10) + x) = sat (m * 10 + x).
Proof. intros m x. unfold sat, u32_max. lia. Qed.
Definition counting (v : vi) : Prop := vmode_of v = MNormal \/ (exists st, vmode_of v = MDelete st).
Lemma digit_passes : forall d, digit d -> passes (KChar d).
Proof. intros d [H1 H2]. split; intros ->; vm_compute in H1; congruence. Qed.

Lemma typing_digits : forall P ds m v s (Q : vi -> ed -> Prop), Forall digit ds -> counting v ->
  v_count v = sat m -> (m <> 0)%N -> 
  (forall s', s' = s \/ s' = set_hint None s ->
     Q (vset_count (sat (fold_left (fun n c => n * 10 + (c - 48))%N ds m)) v) s') ->
  typing P (map KChar ds) v s Q.
Proof.
  intro P. induction ds as [|d ds IH]; intros m v s Q Hds Hm Hc Hn HQ; cbn [map].
  - apply typing_nil. cbn [fold_left] in HQ. rewrite <- Hc in HQ. destruct v. apply HQ. auto.
  - inversion Hds; subst. apply typing_cons; [apply digit_passes; assumption|]. intros E _.
    apply okv_digit; [assumption|exact Hm|rewrite Hc; unfold sat, u32_max; lia|].
    rewrite Hc, sat_step. apply (IH (m * 10 + (d - 48))%N).
    + assumption.
    + exact Hm.
    + reflexivity.
    + lia.
    + intros s' Hs'. rewrite vset_count_2. cbn [fold_left] in HQ. apply HQ.
      destruct Hs' as [-> | ->]; auto.
Qed.

(** The count stored after typing [ks]. *)
Definition stored (ks : list key) (n : N) : N := match ks with [] => 0%N | _ => n end.
Lemma typing_count : forall P ks n v s (Q : vi -> ed -> Prop), count ks n -> counting v -> v_count v = 0%N ->
  (forall s', s' = s \/ s' = set_hint None s -> Q (vset_count (stored ks n) v) s') ->
  typing P ks v s Q.
Proof.
  intros P ks n v s Q Hk Hm Hc HQ. destruct Hk as [|d ds Hd Hz Hds]; cbn [stored map] in *.
  - apply typing_nil. rewrite <- Hc in HQ. destruct v. apply HQ. auto.
  - apply typing_cons; [apply digit_passes; exact Hd|]. intros E _.
    apply okv_digit; [exact Hd|exact Hm|intro; contradiction|]. rewrite Hc. unfold number in HQ. cbn [fold_left] in HQ.
    change (sat (sat (0 * 10) + (d - 48))) with (sat (0 * 10 + (d - 48))).
    apply (typing_digits P ds (0 * 10 + (d - 48))%N); [exact Hds|exact Hm|reflexivity| |].
    + destruct Hd. lia.
    + intros s' Hs'. rewrite vset_count_2. apply HQ. destruct Hs' as [-> | ->]; auto.
Qed.

Lemma count_pos : forall ks n, count ks n -> (n <> 0)%N.
Proof.
  intros ks n [|d ds Hd Hz Hds]; [discriminate|].
  assert (H : forall ds m, (m <> 0)%N -> (fold_left (fun n c => n * 10 + (c - 48))%N ds m <> 0)%N).
  { clear. induction ds as [|d ds IH]; intros m Hm; [exact Hm|]. cbn [fold_left]. apply IH. lia. }
  unfold number. cbn [fold_left]. specialize (H ds (0 * 10 + (d - 48))%N).
  assert ((0 * 10 + (d - 48) <> 0)%N) as Hp by (destruct Hd; lia). specialize (H Hp). lia.
Qed.
Lemma stored_move : forall ks n v, count ks n -> v_count v = stored ks n -> move_count v = n.
Proof.
  intros ks n v Hk Hv. unfold move_count. rewrite Hv. pose proof (count_pos _ _ Hk) as Hn.
  destruct Hk; cbn [stored]; [reflexivity|]. cbn [map stored] in *. apply N.eqb_neq in Hn. rewrite Hn. reflexivity.
Qed.

(** * Single keys that move *)
Ltac decide_okv :=
  repeat (match goal with
  | |- okv (if ?b then _ else _) _ _ _ =>
      let b' := eval vm_compute in b in
      match b' with true => change b with true | false => change b with false end
  end; cbv iota).

Lemma clamp_0 : forall e n, clamp_cursor e n 0 = 0.
Proof. intros e n. unfold clamp_cursor. destruct n; cbn; destruct e; reflexivity. Qed.

(** Where single-key motions go from [c], before leaving the motion. *)
Definition onekey (k : key) (n : N) (len c p : nat) : Prop :=
  (In k [kch "h"; KBackspace] /\ p = c - N.to_nat n) \/
  (In k [kch "l"; kch " "] /\ p = Nat.min (c + N.to_nat n) len) \/
  (In k [kch "^"] /\ p = 0) \/
  (In k [kch "$"] /\ p = len).

Lemma okv_onekey : forall rec E k p v s b c e Q, view s b c e -> onekey k (move_count v) (length (data b)) c p ->
  (forall s', view s' b (clamp_cursor e (length (data b)) p) e ->
     okv (pop_mode_after_movement E Exclusive) v s' Q) ->
  okv (vi_normal rec E k) v s Q.
Proof.
  intros rec E k p v s b c e Q V Hk HQ. pose proof V as [_ [_ [Hc _]]].
  assert (HL : okv (bind getk (fun v => bind gete (fun s => lift (move_cursor_left E (move_count_left v s)) ;;;
     pop_mode_after_movement E Exclusive))) v s Q \/ p <> c - N.to_nat (move_count v)).
  { destruct (Nat.eq_dec p (c - N.to_nat (move_count v))) as [->|]; [left|right; assumption].
    apply okv_getk, okv_gete. eapply okv_lands; [apply (ok_move_left E _ _ _ _ _ V)|].
    intros ? s' [V' _]. apply HQ. unfold move_count_left in V'. rewrite Hc in V'.
    replace (c - N.to_nat (N.min (N.of_nat c) (move_count v))) with (c - N.to_nat (move_count v)) in V' by lia.
    exact V'. }
  assert (HR : okv (bind mcr (fun n => lift (move_cursor_right E n) ;;;
     pop_mode_after_movement E Exclusive)) v s Q \/ p <> Nat.min (c + N.to_nat (move_count v)) (length (data b))).
  { destruct (Nat.eq_dec p (Nat.min (c + N.to_nat (move_count v)) (length (data b)))) as [->|]; [left|right; assumption].
    unfold mcr. apply okv_bind, okv_getk, okv_gete, okv_liftr. intros n Hn.
    eapply okv_lands; [apply (ok_move_right E n _ _ _ _ V)|].
    intros ? s' [V' _]. apply HQ.
    replace (Nat.min (c + N.to_nat (move_count v)) (length (data b))) with (Nat.min (c + n) (length (data b))); [exact V'|].
    destruct (view_line _ _ _ _ V) as [b0 [H1 H2]]. unfold move_count_right in Hn. rewrite H1 in Hn. cbn [rbind] in Hn.
    unfold sub_chk, num_chars in Hn. rewrite H2, Hc in Hn. destruct (c <=? length (data b)) eqn:El; [|discriminate].
    apply Nat.leb_le in El. cbn [rbind] in Hn. injection Hn as <-. lia. }
  unfold onekey in Hk. cbn [In] in Hk.
  repeat match goal with
  | H : _ \/ _ |- _ => lazymatch type of H with okv _ _ _ _ \/ _ => fail | _ => destruct H as [H|H] end
  | H : _ /\ _ |- _ => destruct H
  end; try contradiction; subst k; unfold kch, vi_normal; decide_okv.
  - destruct HL as [HL|HL]; [exact HL|contradiction].
  - destruct HL as [HL|HL]; [exact HL|contradiction].
  - destruct HR as [HR|HR]; [exact HR|contradiction].
  - destruct HR as [HR|HR]; [exact HR|contradiction].
  - eapply okv_lands; [apply (ok_move_start E _ _ _ _ V)|]. intros ? s' [V' _]. apply HQ.
    subst p. rewrite clamp_0. exact V'.
  - eapply okv_lands; [apply (ok_move_end E _ _ _ _ V)|]. intros ? s' [V' _]. apply HQ.
    subst p. exact V'.
Qed.

Lemma okv_zero : forall rec E v s b c e Q, view s b c e -> v_count v = 0%N ->
  (forall s', view s' b 0 e -> okv (pop_mode_after_movement E Exclusive) v s' Q) ->
  okv (vi_normal rec E (kch "0")) v s Q.
Proof.
  intros rec E v s b c e Q V Hc HQ. unfold kch, vi_normal. decide_okv. apply okv_getk. rewrite Hc. cbn [N.eqb is_char].
  change (ch "0" =? ch "0")%N with true. cbn [andb].
  eapply okv_lands; [apply (ok_move_start E _ _ _ _ V)|]. intros ? s' [V' _]. apply HQ. exact V'.
Qed.

(** Word motions *)
Lemma okv_word : forall E m big v s b c e,
  view s b c e ->
  ok (if match m with WEnd | WBack => true | _ => false end
      then vi_move_word_end E big (match m with WEnd => true | _ => false end) (move_count v)
      else vi_move_word E big (match m with WNext => true | _ => false end) (move_count v)) s
     (fun _ s' => view s' b (clamp_cursor e (length (data b))
         (Nat.min (iterp (N.to_nat (move_count v)) (word_once (e_uni E) m big (data b)) c) (length (data b)))) e).
Proof.
  intros E m big v s b c e V. pose proof V as [_ [_ [Hc _]]].
  destruct m; unfold vi_move_word, vi_move_word_end; apply ok_bind, ok_gets;
    (eapply ok_seq; [apply (ok_get_cur _ _ _ _ V)|]); intros x s' [-> Hx]; rewrite Hx, Hc, repeat_iterp;
    (eapply ok_mono; [apply (ok_move_to E _ _ _ _ _ V)|]); intros ? s' [V' _]; exact V'.
Qed.
Lemma okv_word1 : forall rec E m big k v s b c e Q, view s b c e -> word_keys m big = [k] ->
  (forall s', view s' b (clamp_cursor e (length (data b))
         (Nat.min (iterp (N.to_nat (move_count v)) (word_once (e_uni E) m big (data b)) c) (length (data b)))) e ->
     okv (pop_mode_after_movement E Exclusive) v s' Q) ->
  okv (vi_normal rec E k) v s Q.
Proof.
  intros rec E m big k v s b c e Q V Hk HQ. pose proof (okv_word E m big v s b c e V) as Hw.
  destruct m, big; cbn [word_keys] in Hk; try discriminate; injection Hk as <-; unfold kch, vi_normal; decide_okv;
    apply okv_getk; (eapply okv_lands; [exact Hw|]); intros ? s' V'; apply HQ; exact V'.
Qed.

Lemma okv_finally : forall m f v s (Q : unit -> vi -> ed -> Prop),
  okv m v s (fun a v' s' => Q a (f v') s') -> okv (finally m f) v s Q.
Proof. intros m f v s Q H. unfold okv, finally in *. destruct (m (v, s)) as [a [v' s']|e [v' s']| |]; auto. Qed.

Lemma okv_ge : forall E big k v s b c e Q, view s b c e -> word_keys WBackEnd big = [kch "g"; k] ->
  (forall s', view s' b (clamp_cursor e (length (data b))
         (Nat.min (iterp (N.to_nat (move_count v)) (word_once (e_uni E) WBackEnd big (data b)) c) (length (data b)))) e ->
     okv (pop_mode_after_movement E Inclusive) (vset_cur (v_cur v ++ [k]) v) s' (fun _ v' s' => Q tt (vset_count 0 v') s')) ->
  okv (vi_g E k) v s Q.
Proof.
  intros E big k v s b c e Q V Hk HQ. pose proof (okv_word E WBackEnd big v s b c e V) as Hw. cbv iota in Hw.
  unfold vi_g. apply okv_getk. unfold push_cur. apply okv_modk.
  destruct big; cbn [word_keys] in Hk; injection Hk as <-; unfold kch, kis in *; decide_okv;
    (eapply okv_lands; [exact Hw|]); intros ? s' V'; apply okv_finally; (eapply okv_mono; [apply HQ; exact V'|]);
    intros [] v' s2 H; exact H.
Qed.

(** * Character searches *)

(** What a search finds: where the cursor ends up. *)
Definition searched (m : cmove) (t : text) (c : nat) (x : char) (n : N) (p : nat) : Prop :=
  (exists q, search_hit m t c x n q /\ p = search_stop m q) \/ (search_miss m t c x n /\ p = c).
Definition real (m : cmove) : Prop := search_key m <> None.
Definition mt_search (m : cmove) : mtype := match m with RightAt | RightUntil => Inclusive | _ => Exclusive end.

Lemma searched_le : forall m t c x n p, c <= length t -> searched m t c x n p -> p <= length t.
Proof.
  intros m t c x n p Hc [[q [H ->]]|[_ ->]]; [|exact Hc].
  destruct m; cbn [search_hit search_stop] in *; try contradiction;
    destruct H as [a [r [z [-> [H1 [_ ->]]]]]]; rewrite !app_length in *; cbn [length] in *; rewrite ?app_length in *; lia.
Qed.

(** The command proper, once the character and the direction are known. *)
Definition search_body (E : env) (x : char) (m : cmove) (n : N) : MV unit :=
    s <- gete ;;
    b <- lift get_cur ;;
    let go (r : res (option nat)) (adj : nat -> nat) : MV unit :=
      o <- liftr r ;;
      match o with Some i => lift (move_cursor_to E (adj i)) | None => ret tt end in
    mt <- (match m with
           | RightUntil =>
             go (find_char (data b) (ed_cursor s + 1) x n) (fun i => i - 1) ;;; ret Inclusive
           | RightAt =>
             go (find_char (data b) (ed_cursor s + 1) x n) (fun i => i) ;;; ret Inclusive
           | LeftUntil =>
             go (find_char_rev (data b) (ed_cursor s) x n) (fun i => i + 1) ;;; ret Exclusive
           | LeftAt =>
             go (find_char_rev (data b) (ed_cursor s) x n) (fun i => i) ;;; ret Exclusive
           | RepeatMove | ReverseRepeat => pan PUnreach
           end) ;;
    pop_mode_after_movement E mt.

Lemma okv_search_body : forall E x m n v s b c e Q, view s b c e -> real m -> c <= length (data b) ->
  (forall s' p, searched m (data b) c x n p ->
     view s' b p e \/ view s' b (clamp_cursor e (length (data b)) p) e ->
     okv (pop_mode_after_movement E (mt_search m)) v s' Q) ->
  okv (search_body E x m n) v s Q.
Proof.
  intros E x m n v s b c e Q V Hm Hlen HQ. pose proof V as [_ [_ [Hc _]]].
  unfold search_body. apply okv_gete. eapply okv_lands; [apply (ok_get_cur _ _ _ _ V)|].
  intros y s' [-> Hy]. rewrite Hy, Hc. cbv zeta.
  assert (Hgo : forall (r : res (option nat)) (adj : nat -> nat) (k : unit -> MV mtype) (Q : mtype -> vi -> ed -> Prop),
    (forall o, r = Val o -> match o with
       | Some q => searched m (data b) c x n (adj q)
       | None => searched m (data b) c x n c end) ->
    (forall s' p, searched m (data b) c x n p ->
       view s' b p e \/ view s' b (clamp_cursor e (length (data b)) p) e -> okv (k tt) v s' Q) ->
    okv (bind (bind (liftr r) (fun o => match o with Some i => lift (move_cursor_to E (adj i)) | None => ret tt end)) k) v s Q).
  { intros r adj k Q' Hr Hk. apply okv_bind, okv_bind, okv_liftr. intros o Ho. specialize (Hr o Ho).
    destruct o as [q|].
    - apply okv_lift. eapply ok_mono; [apply (ok_move_to E _ _ _ _ _ V)|]. intros [] s' [V' _].
      apply (Hk s' (adj q) Hr). right. rewrite Nat.min_l in V' by (eapply searched_le; eassumption). exact V'.
    - apply okv_ret. apply (Hk s c Hr). left. exact V. }
  destruct m; try (exfalso; apply Hm; reflexivity); apply okv_bind; cbn [mt_search] in HQ.
  - apply Hgo; [|intros s' p H1 H2; apply okv_ret; exact (HQ s' p H1 H2)].
    intros o Ho. apply find_right in Ho. destruct o as [q|]; [left; exists q; auto|right; auto].
  - apply Hgo; [|intros s' p H1 H2; apply okv_ret; exact (HQ s' p H1 H2)].
    intros o Ho. apply find_right in Ho. destruct o as [q|]; [left; exists q; auto|right; auto].
  - apply Hgo; [|intros s' p H1 H2; apply okv_ret; exact (HQ s' p H1 H2)].
    intros o Ho. apply find_left in Ho. destruct o as [q|]; [left; exists q; auto|right; auto].
  - apply Hgo; [|intros s' p H1 H2; apply okv_ret; exact (HQ s' p H1 H2)].
    intros o Ho. apply find_left in Ho. destruct o as [q|]; [left; exists q; auto|right; auto].
Qed.

Lemma okv_search : forall E x m v s Q, real m ->
  okv (search_body E x m (move_count v))
      (vset_cur (v_cur v ++ [KChar x]) (vset_lcm (Some (x, m)) (vset_count 0 v))) s Q ->
  okv (vi_move_to_char E (KChar x) m) v s Q.
Proof.
  intros E x m v s Q Hm H. unfold vi_move_to_char. apply okv_getk. cbv zeta. apply okv_modk.
  destruct m; try (exfalso; apply Hm; reflexivity); unfold push_cur;
    apply okv_bind; apply okv_modk, okv_modk, okv_ret; exact H.
Qed.
Lemma okv_search_again : forall E k x m v s Q, v_lcm v = Some (x, m) ->
  okv (search_body E x m (move_count v)) (vset_count 0 v) s Q ->
  okv (vi_move_to_char E k RepeatMove) v s Q.
Proof.
  intros E k x m v s Q Hl H. unfold vi_move_to_char. apply okv_getk. cbv zeta. apply okv_modk.
  rewrite Hl. apply okv_bind, okv_ret. exact H.
Qed.
Lemma okv_search_back : forall E k x m v s Q, v_lcm v = Some (x, m) -> real m ->
  okv (search_body E x (reverse_search m) (move_count v)) (vset_count 0 v) s Q ->
  okv (vi_move_to_char E k ReverseRepeat) v s Q.
Proof.
  intros E k x m v s Q Hl Hm H. unfold vi_move_to_char. apply okv_getk. cbv zeta. apply okv_modk.
  rewrite Hl. destruct m; try (exfalso; apply Hm; reflexivity); apply okv_bind, okv_ret; exact H.
Qed.
