(** Consequences of the mode analysis for whole sessions: termination and the
    effect of repeat (C39), Esc (C41). *)
From Verif Require Import Base Utf8 BufferModel UtilModel HistoryModel EditorState EditorModel
  KeymapModel ViModel MonadLemmas EditorLemmas ViEffects ViModes ViSpec.
Local Open Scope monad_scope.

Lemma vk_and : forall {A} (m : MV A) v (Q Q' : A -> vi -> Prop),
  vk m v Q -> vk m v Q' -> vk m v (fun a v' => Q a v' /\ Q' a v').
Proof. intros A m v Q Q' H H' s. specialize (H s). specialize (H' s). destruct (m (v, s)) as [a [v' s']| | |]; auto. Qed.

(** * The fuel is enough *)
Lemma J_enough : forall n v, J n v -> J (length (v_last v) + length (v_cur v) + 1) v.
Proof.
  intros n v [H1 H2 H3 H4 H5 H6 H7 H8]. constructor; auto; try lia.
  intro H. destruct (H4 H). split; [assumption|lia].
Qed.
Lemma vk_vi_core : forall E k n v, J n v -> vk (vi_core E k) v (fun _ v' => exists n', J n' v').
Proof.
  intros E k n v HJ. unfold vi_core. apply vk_getk. eapply vk_mono.
  - apply (vk_core _ E k _ v (J_enough n v HJ)). unfold vi_fuel. lia.
  - intros ? v' H. eexists. exact H.
Qed.

(** [handle_key] calls the key map or leaves its state alone. *)
Definition hidden (k : key) : key := match k with KCtrl c => if is_char c "h" then KBackspace else k | _ => k end.
Lemma vk_handle_key : forall E k v (Q : vi -> Prop),
  Q v -> vk (vi_core E (hidden k)) v (fun _ => Q) -> vk (handle_key vi_core E k) v (fun _ => Q).
Proof.
  intros E k v Q HQ HC. unfold handle_key. apply vk_bind, vk_gete. intro s. apply vk_bind.
  assert (Hopt : forall {B} (r : res B) (P : B -> vi -> Prop), (forall b, P b v) ->
    vk (fun st : vi * ed => match r with Val b => ORet b st | Pan p => OPanic p end) v P).
  { intros B r P HP s0. destruct r; [apply HP|exact I]. }
  destruct (cur_buf s) as [b|p]; [|intro; exact I]. intro s0. revert s0.
  change (vk (ret (buf_is_empty b)) v (fun a v' =>
     vk (let k0 := hidden k in
        let other := vi_core E k0 ;;; mod_ed skip_completions_hint ;;; ret false in
        done <- (match k0 with
          | KCtrl c =>
            if is_char c "c" then lift (handle_newline E) ;;; fail EInterrupted
            else if is_char c "d" && a then lift (handle_newline E) ;;; fail EUnexpectedEof
            else if is_char c "f" && showing_autosuggestion s then
              lift (accept_autosuggestion E) ;;; ret false
            else if is_char c "r" then lift (search E false) ;;; ret false
            else if is_char c "s" then lift (search E true) ;;; ret false
            else other
          | KChar c =>
            if N.eqb c c_tab then lift (complete E) ;;; ret false
            else if N.eqb c c_nl then lift (handle_newline E)
            else other
          | KRight =>
            if showing_autosuggestion s then
              at_end <- (fun st => match cursor_is_at_end_of_line s with
                                   | Val b => ORet b st
                                   | Pan p => OPanic p
                                   end) ;;
              if at_end : bool then lift (accept_autosuggestion E) ;;; ret false else other
            else other
          | _ => other
          end) ;;
        (if e_wok E then ret done else fail EOther)) v' (fun _ => Q))).
  apply vk_ret. cbv zeta. apply vk_bind.
  assert (Hother : vk (vi_core E (hidden k) ;;; mod_ed skip_completions_hint ;;; ret false) v
     (fun d v' => vk (if e_wok E then ret d else fail EOther) v' (fun _ : bool => Q))).
  { apply vk_bind. eapply vk_mono; [exact HC|]. intros ? v' Hv'. apply vk_bind, vk_mod_ed, vk_ret.
    destruct (e_wok E); [apply vk_ret; exact Hv'|apply vk_fail]. }
  assert (Hv : forall d, vk (if e_wok E then ret d else fail EOther) v (fun _ : bool => Q)).
  { intro d. destruct (e_wok E); [apply vk_ret; exact HQ|apply vk_fail]. }
  assert (Hl : forall {B} (m : ME B) d, nofuel m -> vk (lift m ;;; ret d) v
     (fun d v' => vk (if e_wok E then ret d else fail EOther) v' (fun _ : bool => Q))).
  { intros B m d Hm. apply vk_bind, vk_lift; [exact Hm|]. intro. apply vk_ret. apply Hv. }
  assert (Hf : forall {B} (m : ME B) e, nofuel m -> vk (lift m ;;; fail e) v
     (fun d v' => vk (if e_wok E then ret d else fail EOther) v' (fun _ : bool => Q))).
  { intros B m d Hm. apply vk_bind, vk_lift; [exact Hm|]. intro. apply vk_fail. }
  destruct (hidden k) as [x|x|x| | | | | | | | | | |]; try exact Hother.
  - destruct (x =? c_tab)%N; [apply Hl; auto with nf|].
    destruct (x =? c_nl)%N; [apply vk_lift; [auto with nf|exact Hv]|exact Hother].
  - destruct (is_char x "c"); [apply Hf; auto with nf|].
    destruct (is_char x "d" && buf_is_empty b); [apply Hf; auto with nf|].
    destruct (is_char x "f" && showing_autosuggestion s); [apply Hl; auto with nf|].
    destruct (is_char x "r"); [apply Hl; auto with nf|].
    destruct (is_char x "s"); [apply Hl; auto with nf|exact Hother].
  - destruct (showing_autosuggestion s); [|exact Hother]. apply vk_bind. apply Hopt. intros [|];
      [apply Hl; auto with nf|exact Hother].
Qed.

Lemma vk_run_keys : forall l n v, J n v -> vk (run_keys vi_core l) v (fun _ v' => exists n', J n' v').
Proof.
  induction l as [|[E k] l IH]; intros n v HJ; cbn [run_keys]; [apply vk_ret; exists n; exact HJ|].
  apply vk_bind. eapply vk_mono.
  - apply (vk_handle_key E k v (fun v' => exists n', J n' v')); [exists n; exact HJ|].
    apply (vk_vi_core E _ n). exact HJ.
  - intros [|] v' [n' HJ']; [apply vk_ret; exists n'; exact HJ'|]. apply (IH n'). exact HJ'.
Qed.
Lemma J_new : J 0 vi_new.
Proof.
  constructor; cbn [vi_new v_stack v_last v_cur v_lastins v_curins v_lcm length].
  - constructor.
  - constructor.
  - lia.
  - intro. jstk.
  - intro. jstk.
  - intros k [= <-]. exists (ch "i"). split; [reflexivity|]. cbn. auto.
  - intros k H. discriminate.
  - intros c m H. discriminate.
Qed.
Lemma vk_session : forall E l, vk (vi_init E ;;; run_keys vi_core l) vi_new (fun _ v' => exists n', J n' v').
Proof.
  intros E l. apply vk_bind. unfold vi_init. apply vk_bind, vk_buf_mut, vk_set_editor_mode.
  apply (vk_run_keys l 0). exact J_new.
Qed.

(** * More fuel does not change anything *)
Definition refines {S A} (m m' : M S A) : Prop := forall x, m x = OFuel \/ m x = m' x.
Lemma rf_refl : forall {S A} (m : M S A), refines m m.
Proof. intros S A m x. right. reflexivity. Qed.
Lemma rf_bind : forall {S A B} (m m' : M S A) (k k' : A -> M S B),
  refines m m' -> (forall a, refines (k a) (k' a)) -> refines (bind m k) (bind m' k').
Proof.
  intros S A B m m' k k' H Hk x. unfold bind. destruct (H x) as [E|E]; rewrite E; [left; reflexivity|].
  destruct (m' x); auto. apply Hk.
Qed.
Lemma rf_mfor : forall {S A} (l : list A) (b b' : A -> M S unit),
  (forall a, refines (b a) (b' a)) -> refines (mfor l b) (mfor l b').
Proof. intros S A l b b' H. induction l; cbn [mfor]; [apply rf_refl|apply rf_bind; auto]. Qed.
Lemma rf_ploop : forall {S} p (b b' : M S bool), refines b b' -> refines (ploop p b) (ploop p b').
Proof.
  intros S p b b' H.
  induction p; cbn [ploop]; repeat (first [exact H|exact IHp|apply rf_refl|apply rf_bind; [|intros [|]]]).
Qed.
Lemma rf_Nloop : forall {S} n (b b' : M S bool), refines b b' -> refines (Nloop n b) (Nloop n b').
Proof. intros S [|p] b b' H; cbn [Nloop]; [apply rf_refl|apply rf_bind; [apply rf_ploop; exact H|intro; apply rf_refl]]. Qed.
Lemma rf_when : forall {S} c (b b' : M S unit), refines b b' -> refines (when c b) (when c b').
Proof. intros S [|] b b' H; [exact H|apply rf_refl]. Qed.

Section Refine.
  Context (rec rec' : key -> MV unit) (Hrec : forall k, refines (rec k) (rec' k)).
  Lemma rf_repeat : refines (vi_repeat rec) (vi_repeat rec').
  Proof.
    unfold vi_repeat. repeat (first [apply Hrec|apply rf_mfor|apply rf_refl|apply rf_bind; [|intro]|
      match goal with |- refines (match ?x with _ => _ end) _ => destruct x end]).
  Qed.
  Lemma rf_normal : forall E k, refines (vi_normal rec E k) (vi_normal rec' E k).
  Proof.
    intros E k. unfold vi_normal. destruct k as [x|x|x| | | | | | | | | | |]; try apply rf_refl.
    repeat (match goal with
    | |- refines (if ?b then vi_repeat _ else _) _ => fail 1
    | |- refines (if is_char x "." then _ else _) _ =>
        destruct (is_char x "."); [apply rf_bind; [apply rf_refl|intro; apply rf_repeat]|apply rf_refl]
    | |- refines (if ?b then _ else _) _ => destruct b; [apply rf_refl|]
    end).
  Qed.
  Lemma rf_insert : forall E k, refines (vi_insert rec E k) (vi_insert rec' E k).
  Proof.
    intros E k. unfold vi_insert.
    destruct k as [x|x|x| | | | | | | | | | |]; try apply rf_refl;
      [destruct (is_char x "["); [|apply rf_refl]|];
      (apply rf_bind; [apply rf_refl|]; intro; apply rf_bind; [|intro; apply rf_refl];
       apply rf_when; apply rf_bind; [apply rf_refl|]; intro; apply rf_bind; [|intro; apply rf_refl];
       apply rf_Nloop; apply rf_bind; [apply rf_refl|]; intro; apply rf_bind; [apply rf_refl|]; intro;
       apply rf_bind; [|intro; apply rf_refl]; apply rf_mfor; exact Hrec).
  Qed.
  Lemma rf_delete : forall E k, refines (vi_delete_or_change rec E k) (vi_delete_or_change rec' E k).
  Proof.
    intros E k. unfold vi_delete_or_change. apply rf_bind; [apply rf_refl|]. intro v.
    destruct (is_movement_key k || _); [|destruct (match k with KChar _ => _ | _ => _ end); [apply rf_normal|apply rf_refl]].
    apply rf_bind; [apply rf_refl|]. intro. apply rf_bind; [apply rf_refl|]. intro. apply rf_normal.
  Qed.
End Refine.
Lemma fuel_S : forall f E k, refines (vi_core_fuel f E k) (vi_core_fuel (S f) E k).
Proof.
  induction f as [|f IH]; intros E k; [intro x; left; reflexivity|].
  cbn [vi_core_fuel]. apply rf_bind; [apply rf_refl|]. intro v.
  destruct (vmode_of v); try apply rf_refl; [apply rf_insert|apply rf_normal|apply rf_delete]; intro; apply IH.
Qed.
Lemma fuel_more : forall f g E k x, f <= g -> vi_core_fuel f E k x <> OFuel ->
  vi_core_fuel g E k x = vi_core_fuel f E k x.
Proof.
  intros f g E k x Hfg Hn. induction Hfg as [|g Hfg IH]; [reflexivity|].
  destruct (fuel_S g E k x) as [H|H]; [congruence|]. rewrite <- IH. symmetry. exact H.
Qed.

(** * What [.] repeats *)

(** A character search given its character *)
Lemma vk_find : forall E c m v (Q : unit -> vi -> Prop), direct m ->
  Q tt (after_movement (vset_cur (v_cur v ++ [KChar c]) (vset_lcm (Some (c, m)) (vset_count 0 v)))) ->
  vk (vi_move_to_char E (KChar c) m) v Q.
Proof.
  intros E c m v Q [M1 M2] HQ. unfold vi_move_to_char. apply vk_getk. cbv zeta. apply vk_bind, vk_modk.
  destruct m; try congruence; unfold push_cur; vks; (match goal with |- vk (match ?o with _ => _ end) _ _ => destruct o end; vks); apply vk_pop_am; exact HQ.
Qed.

(** Keys that do not call [handle_key_core] again *)
Definition step (k : key) (v : vi) (Q : vi -> Prop) : Prop :=
  forall E f, vk (vi_core_fuel (S f) E k) v (fun _ => Q).
Fixpoint steps (l : list key) (v : vi) (Q : vi -> Prop) : Prop :=
  match l with [] => Q v | k :: l' => step k v (fun v' => steps l' v' Q) end.

Lemma steps_mono : forall l v (Q Q' : vi -> Prop), steps l v Q -> (forall v', Q v' -> Q' v') -> steps l v Q'.
Proof.
  induction l as [|k l IH]; intros v Q Q' H HQ; cbn [steps] in *; [auto|].
  intros E f. eapply vk_mono; [apply (H E f)|]. intros ? v' H'. apply (IH v' Q); assumption.
Qed.
Lemma steps_app : forall l l' v Q, steps l v (fun v' => steps l' v' Q) -> steps (l ++ l') v Q.
Proof.
  induction l as [|k l IH]; intros l' v Q H; cbn [steps app] in *; [exact H|].
  intros E f. eapply vk_mono; [apply (H E f)|]. intros ? v' H'. apply IH. exact H'.
Qed.
Lemma steps_mfor : forall f E l v Q, steps l v Q -> vk (mfor l (vi_core_fuel (S f) E)) v (fun _ => Q).
Proof.
  intros f E. induction l as [|k l IH]; intros v Q H; cbn [steps mfor] in *; [apply vk_ret; exact H|].
  apply vk_bind. eapply vk_mono; [apply H|]. intros ? v' H'. apply IH. exact H'.
Qed.

Definition recorded (v : vi) : Prop :=
  match v_lastins v with
  | Some k => (exists c, k = KChar c /\ In c (str "iaAIs")) \/
              (k = kch "c" /\ exists m t, motion m /\ Forall typed t /\ v_last v = m ++ t)
  | None => In (v_last v) [[kch "x"]; [KDelete]; [kch "D"]; [kch "~"]] \/
            (exists x, v_last v = [kch "r"; KChar x]) \/
            (exists m, motion m /\ v_last v = kch "d" :: m)
  end.

Ltac one_of := repeat match goal with H : _ \/ _ |- _ => destruct H as [<-|H] end; [..|contradiction].
Ltac stepn := unfold kch; intros E f; apply core_S; cbn [vmode_of v_stack]; unfold vi_normal; decide_chars; vm.

(** Motions in normal mode *)
Lemma steps_motion : forall m v, motion m -> v_stack v = [] ->
  steps m v (fun v' => v_stack v' = [] /\ v_last v' = v_last v /\ v_lastins v' = v_lastins v).
Proof.
  intros m v Hm Hst. destruct v as [st cur lst ci li c sc lc r lm]. cbn [v_stack] in Hst. subst st.
  destruct Hm as [x Hx|x y Hx N1 N2|x Hx]; cbn [str In] in Hx; cbn [steps].
  - one_of; stepn; unfold after_movement, vmode_of; vsimp; auto.
  - one_of; stepn; vsimp; intros E' f'; apply core_S; cbn [vmode_of v_stack];
      (apply vk_find; [split; discriminate|]); unfold after_movement, vmode_of; vsimp; auto.
  - one_of; stepn; vsimp; intros E' f'; apply core_S; vsimp; unfold vi_g; vm;
      decide_chars; vm; apply vk_finally; vm; unfold after_movement, vmode_of; vsimp; auto.
Qed.

(** Motions after [d] or [c] *)
Lemma steps_motion_delete : forall m v d l, motion m -> v_stack v = MDelete d :: l -> base l -> v_count v = 0%N ->
  steps m v (fun v' => v_stack v' = l /\ v_last v' = v_cur v ++ m /\ v_lastins v' = v_curins v /\ v_count v' = 0%N).
Proof.
  intros m v d l Hm Hst Hl Hc. destruct v as [st cur lst ci li c sc lc r lm]. cbn [v_stack v_count] in Hst, Hc. subst st c.
  destruct Hm as [x Hx|x y Hx N1 N2|x Hx]; cbn [str In] in Hx; cbn [steps].
  - unfold kch; one_of; intros E f; apply core_S; cbn [vmode_of v_stack]; unfold vi_delete_or_change; vm; decide_chars; vm;
      unfold vi_normal; decide_chars; vm; unfold after_movement, vmode_of; vsimp;
      destruct Hl as [->| ->]; vsimp; auto.
  - unfold kch; one_of; intros E f; apply core_S; cbn [vmode_of v_stack]; unfold vi_delete_or_change; vm; decide_chars; vm;
      unfold vi_normal; decide_chars; vm; intros E' f'; apply core_S; cbn [vmode_of v_stack];
      vsimp; (apply vk_find; [split; discriminate|]); unfold after_movement, vmode_of; vsimp;
      destruct Hl as [->| ->]; vsimp; rewrite <- app_assoc; auto.
  - unfold kch; one_of; intros E f; apply core_S; cbn [vmode_of v_stack]; unfold vi_delete_or_change; vm; decide_chars; vm;
      unfold vi_normal; decide_chars; vm; intros E' f'; apply core_S; vsimp; unfold vi_g; vm; decide_chars; vm;
      apply vk_finally; vm; unfold after_movement, vmode_of; vsimp; destruct Hl as [->| ->]; vsimp;
      rewrite <- app_assoc; auto.
Qed.

(** Typing in insert mode *)
Definition inserting (v : vi) : Prop :=
  v_stack v = [MInsert] /\ exists c, v_lastins v = Some (KChar c) /\ In c (str "iaAIs").
Lemma typed_plain : forall t, Forall typed t -> Forall plain t.
Proof. intros t H. eapply Forall_impl; [|exact H]. intros [] K; try exact I; contradiction. Qed.
Lemma plain_inserting : forall t v, Forall plain t -> inserting v -> steps t v inserting.
Proof.
  induction t as [|k t IH]; intros v Ht Hv; cbn [steps]; [exact Hv|]. inversion Ht; subst.
  intros E f. apply core_S. unfold vmode_of. rewrite (proj1 Hv).
  assert (Hr : vk insert_reset v (fun _ => inserting)).
  { unfold insert_reset. vm. apply vk_when; intros _; [|exact Hv]. vm. split; [exact (proj1 Hv)|].
    exists (ch "i"). split; [reflexivity|]. cbn. auto. }
  assert (Hr2 : forall k (m : MV unit), (forall v', inserting v' -> vk m v' (fun _ => inserting)) ->
    vk (insert_reset ;;; push_last k ;;; m) v (fun _ v' => steps t v' inserting)).
  { intros k0 m Hm. apply vk_bind. eapply vk_mono; [exact Hr|]. intros ? v' Hv'. apply vk_bind, vk_modk.
    eapply vk_mono; [apply Hm; exact Hv'|]. intros ? v2 Hv2. apply IH; assumption. }
  unfold vi_insert. destruct k as [x|x|x| | | | | | | | | | |]; try contradiction;
    try (apply Hr2; intros; vm; assumption); vm; apply IH; auto; split; apply Hv.
Qed.
Lemma steps_insert : forall c t v, In c (str "iaAIs") -> Forall plain t -> v_stack v = [] ->
  steps (KChar c :: t) v inserting.
Proof.
  intros c t v Hc Ht Hst. cbn [steps]. destruct v as [st cur lst ci li ct sc lc r lm]. cbn [v_stack] in Hst. subst st.
  assert (Hc' := Hc). cbn [str In] in Hc'.
  assert (Hd : forall v', v_stack v' = [MInsert] -> v_lastins v' = Some (KChar c) -> steps t v' inserting).
  { intros v' H1 H2. apply plain_inserting; [exact Ht|]. split; [exact H1|]. exists c. split; assumption. }
  one_of; stepn; apply Hd; reflexivity.
Qed.

(** Typing after a change: the command stays a change, or a movement inside the
    text made it an insertion. *)
Definition changing (l : list key) (v : vi) : Prop :=
  v_stack v = [MInsert] /\ v_last v = l /\ v_lastins v = Some (kch "c") /\ v_count v = 0%N.
Lemma typed_changing : forall t l v, Forall typed t -> changing l v ->
  steps t v (fun v' => changing (l ++ t) v' \/ inserting v').
Proof.
  induction t as [|k t IH]; intros l v Ht Hv; cbn [steps]; [left; rewrite app_nil_r; exact Hv|].
  inversion Ht; subst. destruct Hv as [H3 [H4 [H5 H6]]].
  assert (Hp : plain k) by (destruct k; try exact I; contradiction).
  intros E f. apply core_S. unfold vmode_of. rewrite H3.
  assert (Hr2 : forall (m : MV unit), (forall v' (Q : unit -> vi -> Prop), Q tt v' -> vk m v' Q) ->
    vk (insert_reset ;;; push_last k ;;; m) v (fun _ v' => steps t v' (fun v'' => changing (l ++ k :: t) v'' \/ inserting v''))).
  { intros m Hm. apply vk_bind. unfold insert_reset. vm. apply vk_when; intros _; vm; apply Hm.
    - eapply steps_mono; [apply plain_inserting; [apply typed_plain; assumption|]|intros; right; assumption].
      split; [exact H3|]. exists (ch "i"). split; [reflexivity|]. cbn. auto.
    - replace (l ++ k :: t) with ((l ++ [k]) ++ t) by (rewrite <- app_assoc; reflexivity).
      apply IH; [assumption|]. split; [exact H3|]. split; [vsimp; rewrite H4; reflexivity|]. split; [exact H5|exact H6]. }
  unfold vi_insert. destruct k as [x|x|x| | | | | | | | | | |]; try contradiction; apply Hr2; intros; vm;
    repeat match goal with a : unit |- _ => destruct a end; assumption.
Qed.

(** The recorded commands, step by step *)
Lemma steps_change : forall m t v, motion m -> Forall typed t -> v_stack v = [] ->
  steps (kch "c" :: m ++ t) v (fun v' => changing (m ++ t) v' \/ inserting v').
Proof.
  intros m t v Hm Ht Hst. destruct v as [st cur lst ci li ct sc lc r lm]. cbn [v_stack] in Hst. subst st.
  cbn [steps]. stepn. decide_chars. vm. apply steps_app. eapply steps_mono.
  - eapply steps_motion_delete; [exact Hm|reflexivity|right; reflexivity|reflexivity].
  - intros v' [H1 [H2 [H3 H4]]]. apply typed_changing; [exact Ht|]. vsimp_in H2. vsimp_in H3.
    split; [exact H1|]. split; [exact H2|]. split; [exact H3|exact H4].
Qed.
Lemma steps_delete : forall m v, motion m -> v_stack v = [] ->
  steps (kch "d" :: m) v (fun v' => v_stack v' = [] /\ v_last v' = kch "d" :: m /\ v_lastins v' = None).
Proof.
  intros m v Hm Hst. destruct v as [st cur lst ci li ct sc lc r lm]. cbn [v_stack] in Hst. subst st.
  cbn [steps]. stepn. decide_chars. vm. eapply steps_mono.
  - eapply steps_motion_delete; [exact Hm|reflexivity|left; reflexivity|reflexivity].
  - intros v' [H1 [H2 [H3 H4]]]. vsimp_in H2. vsimp_in H3. auto.
Qed.
Lemma steps_cut : forall k v, In k [kch "x"; KDelete; kch "D"; kch "~"] -> v_stack v = [] ->
  steps [k] v (fun v' => v_stack v' = [] /\ v_last v' = [k] /\ v_lastins v' = None).
Proof.
  intros k v Hk Hst. destruct v as [st cur lst ci li ct sc lc r lm]. cbn [v_stack] in Hst. subst st.
  cbn [steps In] in *. one_of; stepn; vsimp; auto.
Qed.
Lemma steps_replace : forall x v, v_stack v = [] ->
  steps [kch "r"; KChar x] v (fun v' => v_stack v' = [] /\
    ((v_last v' = [kch "r"; KChar x] /\ v_lastins v' = None) \/
     (v_last v' = v_last v /\ v_lastins v' = v_lastins v))).
Proof.
  intros x v Hst. destruct v as [st cur lst ci li ct sc lc r lm]. cbn [v_stack] in Hst. subst st.
  cbn [steps]. stepn. intros E' f'. apply core_S. vsimp. unfold vi_replace. vm.
  apply vk_when; intros _; vm; [|vsimp; auto].
  apply vk_mfor_same; [intros y Q HQ; vm; match goal with |- Q ?a _ => destruct a end; exact HQ|]. vm. vsimp. auto.
Qed.
Lemma steps_delete_line : forall v, v_stack v = [] ->
  steps [kch "d"; kch "d"] v (fun v' => v_stack v' = [] /\ v_last v' = v_last v /\ v_lastins v' = v_lastins v).
Proof.
  intros v Hst. destruct v as [st cur lst ci li ct sc lc r lm]. cbn [v_stack] in Hst. subst st.
  cbn [steps]. stepn. decide_chars. vm. intros E' f'. apply core_S. vsimp. unfold vi_delete_or_change. vm.
  decide_chars. cbn [v_curins vset_count vset_sec enter_mode_fresh enter_mode is_insert vset_cur vset_curins vset_stack vset_reset].
  decide_chars. vm. vsimp. auto.
Qed.
Lemma steps_other : forall c v, In c (str "jku") \/ digit c -> v_stack v = [] ->
  steps [KChar c] v (fun v' => v_stack v' = [] /\ v_last v' = v_last v /\ v_lastins v' = v_lastins v).
Proof.
  intros c v Hc Hst. destruct v as [st cur lst ci li ct sc lc r lm]. cbn [v_stack] in Hst. subst st.
  cbn [steps]. destruct Hc as [Hc|Hc]; cbn [str In] in Hc.
  - one_of; stepn; unfold after_movement, vmode_of; vsimp; auto.
  - unfold digit in Hc.
    assert (D : (c = 48 \/ c = 49 \/ c = 50 \/ c = 51 \/ c = 52 \/ c = 53 \/ c = 54 \/ c = 55 \/ c = 56 \/ c = 57)%N) by lia.
    repeat match goal with H : _ \/ _ |- _ => destruct H as [->|H] end; [..|subst c]; stepn;
      try (match goal with |- vk (if ?b then _ else _) _ _ => destruct b end; vm);
      unfold after_movement, vmode_of; vsimp; auto.
Qed.

(** Esc and the recorded command *)
Definition recins (v : vi) : Prop := exists c, v_lastins v = Some (KChar c) /\ In c (str "iaAIs").
Lemma esc_inserting : forall f E n v, J n v -> inserting v ->
  vk (vi_core_fuel (S (S f)) E KEsc) v (fun _ => recins).
Proof.
  intros f E n v HJ Hv. apply core_S. unfold vmode_of. rewrite (proj1 Hv). unfold vi_insert.
  assert (Hlv : forall v', inserting v' -> recins (leave_mode v')) by (intros v' Hv'; apply Hv').
  vm. apply vk_when; intros _; vm; [|apply Hlv; exact Hv].
  assert (HK : forall v', J n v' -> inserting v' -> K n v') by (intros v' H1 H2; split; [exact H1|apply H2]).
  eapply vk_mono; [apply (vk_Nloop _ (fun v' => K n v' /\ inserting v'))|].
  - intros v' [HK' Hi']. vm.
    assert (Hp : Forall plain (v_last v')) by apply (proj1 HK').
    eapply vk_mono; [apply vk_and; [apply (vk_typed f E (v_last v') 0); [exact Hp|]
      |apply steps_mfor; apply (plain_inserting (v_last v')); [exact Hp|]]|].
    + destruct HK' as [[H1 H2 H3 H4 H5 H6 H7 H8] H9]. split; [|exact H9]. constructor; vsimp; auto; try lia.
      * rewrite H9. intro. jstk.
      * rewrite H9. intro. jstk.
    + exact Hi'.
    + intros ? v2 [HK2 Hi2]. vm. split; [|exact Hi2]. destruct HK2 as [HJ2 Hs2]. split; [|exact Hs2].
      apply (J_mono (0 + length (v_last v'))); [exact HJ2|]. apply (j_len _ _ (proj1 HK')).
  - split; [|exact Hv]. destruct HJ as [H1 H2 H3 H4 H5 H6 H7 H8]. split; [constructor; assumption|apply Hv].
  - intros ? v2 [_ Hi2]. vm. apply Hlv. exact Hi2.
Qed.
Lemma esc_changing : forall f E l v, changing l v ->
  vk (vi_core_fuel (S (S f)) E KEsc) v (fun _ v' => v_last v' = l /\ v_lastins v' = Some (kch "c")).
Proof.
  intros f E l v [H1 [H2 [H3 H4]]]. apply core_S. unfold vmode_of. rewrite H1. unfold vi_insert. vm.
  rewrite H4. apply vk_when; [discriminate|]. intros _. vm. split; [exact H2|exact H3].
Qed.

Definition R (v : vi) : Prop := (exists n, J n v) /\ v_stack v = [] /\ recorded v.
Lemma recins_recorded : forall v, recins v -> recorded v.
Proof. intros v [c [H1 H2]]. unfold recorded. rewrite H1. left. exists c. auto. Qed.
Lemma vk_mfor_J : forall f E keys m v, J m v -> length keys + m + 3 <= f ->
  vk (mfor keys (vi_core_fuel f E)) v (fun _ => J (m + length keys)).
Proof.
  intros f E. induction keys as [|k keys IH]; intros m v HJ Hf; cbn [mfor length] in *.
  - apply vk_ret. rewrite Nat.add_0_r. exact HJ.
  - apply vk_bind. eapply vk_mono; [apply (vk_core f E k m); [exact HJ|lia]|]. intros ? v' HJ'.
    rewrite <- plus_n_Sm. apply (IH (S m)); [exact HJ'|lia].
Qed.

(** [.] *)
Lemma R_repeat : forall E v, R v -> vk (vi_core E (kch ".")) v (fun _ v' => v_stack v' = [] /\ recorded v').
Proof.
  intros E v [[n HJ] [Hst Hr]]. unfold vi_core. apply vk_getk.
  replace (vi_fuel v) with (S (S (S (3 * (length (v_last v) + length (v_cur v)) + 7)))) by (unfold vi_fuel; lia).
  set (g := 3 * (length (v_last v) + length (v_cur v)) + 7).
  apply core_S. unfold vmode_of. rewrite Hst. unfold vi_normal, kch. decide_chars. unfold vi_repeat.
  set (c0 := if (v_count v =? 0)%N then if (v_lcount v =? 0)%N then 1%N else v_lcount v else v_count v).
  apply vk_bind, vk_modk. cbv zeta. apply vk_bind, vk_modk. apply vk_getk. apply vk_bind, vk_modk.
  vsimp. match goal with |- vk _ ?x _ => set (v0 := x) end.
  assert (HJ0 : J 0 v0).
  { destruct HJ as [H1 H2 H3 H4 H5 H6 H7 H8]. subst v0. constructor; vsimp; rewrite ?Hst; auto; try solve [constructor]; intro; jstk. }
  assert (Hs0 : v_stack v0 = []) by (subst v0; auto).
  assert (Hli0 : v_lastins v0 = v_lastins v) by (subst v0; auto).
  assert (Hplain : Forall plain (v_last v)) by apply HJ.
  set (f := S (S g)) in *.
  (* an insertion *)
  assert (Hins : forall ik, v_lastins v = Some ik ->
     steps (ik :: v_last v) v0 (fun v' => (exists l, changing l v' /\ exists m t, motion m /\ Forall typed t /\ v_last v = m ++ t) \/ inserting v') ->
     vk (vi_core_fuel f E ik ;;; mfor (v_last v) (vi_core_fuel f E) ;;;
         (v1 <- getk ;; match v_lastins v1 with Some _ => vi_core_fuel f E KEsc | None => ret tt end ;;;
          modk (vset_last (v_last v)))) v0 (fun _ v' => v_stack v' = [] /\ recorded v')).
  { intros ik Hik Hsteps.
    assert (Ha : vk (mfor (ik :: v_last v) (vi_core_fuel f E)) v0 (fun _ v' => J (0 + length (ik :: v_last v)) v' /\
       ((exists l, changing l v' /\ exists m t, motion m /\ Forall typed t /\ v_last v = m ++ t) \/ inserting v'))).
    { apply vk_and; [apply vk_mfor_J; [exact HJ0|subst f g; cbn [length]; lia]|]. apply steps_mfor. exact Hsteps. }
    assert (Hb : forall v1, J (0 + length (ik :: v_last v)) v1 ->
       ((exists l, changing l v1 /\ exists m t, motion m /\ Forall typed t /\ v_last v = m ++ t) \/ inserting v1) ->
       vk (v1 <- getk ;; match v_lastins v1 with Some _ => vi_core_fuel f E KEsc | None => ret tt end ;;;
          modk (vset_last (v_last v))) v1 (fun _ v' => v_stack v' = [] /\ recorded v')).
    { intros v1 HJ1 Hc. apply vk_getk. apply vk_bind.
      destruct Hc as [[l [Hc [m [t [Hm [Ht Hmt]]]]]]|Hc].
      - destruct Hc as [C1 [C2 [C3 C4]]]. rewrite C3. eapply vk_mono.
        + apply vk_and; [eapply vk_esc; [exact HJ1|reflexivity]|apply (esc_changing g E l)]. split; auto.
        + intros ? v2 [[_ D1] [D2 D3]]. apply vk_modk. split; [exact D1|]. unfold recorded. vsimp. rewrite D3.
          right. split; [reflexivity|]. exists m, t. auto.
      - destruct (proj2 Hc) as [c [C1 C2]]. rewrite C1. eapply vk_mono.
        + apply vk_and; [eapply vk_esc; [exact HJ1|reflexivity]|eapply (esc_inserting g E); [exact HJ1|exact Hc]].
        + intros ? v2 [[_ D1] D2]. apply vk_modk. split; [exact D1|]. apply recins_recorded. exact D2. }
    intro s0. specialize (Ha s0). cbn [mfor] in Ha. unfold bind in Ha. unfold bind at 1.
    destruct (vi_core_fuel f E ik (v0, s0)) as [a1 [v1 s1]| | |]; auto. unfold bind at 1.
    destruct (mfor (v_last v) (vi_core_fuel f E) (v1, s1)) as [a2 [v2 s2]| | |]; auto.
    apply Hb; apply Ha. }
  (* anything else *)
  assert (Hoth : v_lastins v = None ->
     steps (v_last v) v0 (fun v' => v_stack v' = [] /\ v_lastins v' = None) ->
     vk (ret tt ;;; mfor (v_last v) (vi_core_fuel f E) ;;;
         (v1 <- getk ;; match v_lastins v1 with Some _ => vi_core_fuel f E KEsc | None => ret tt end ;;;
          modk (vset_last (v_last v)))) v0 (fun _ v' => v_stack v' = [] /\ recorded v')).
  { intros Hn Hsteps. apply vk_bind, vk_ret. apply vk_bind. eapply vk_mono; [apply steps_mfor; exact Hsteps|].
    intros ? v1 [H1 H2]. apply vk_getk. rewrite H2. vm. split; [exact H1|]. unfold recorded in *. vsimp. rewrite H2.
    rewrite Hn in Hr. exact Hr. }
  unfold recorded in Hr. destruct (v_lastins v) as [ik|] eqn:Eli.
  - apply Hins; [reflexivity|]. destruct Hr as [[c [-> Hc]]|[-> [m [t [Hm [Ht Hmt]]]]]].
    + eapply steps_mono; [apply steps_insert; [exact Hc|exact Hplain|exact Hs0]|]. intros v' H. right. exact H.
    + rewrite Hmt. eapply steps_mono; [apply steps_change; [exact Hm|exact Ht|exact Hs0]|].
      intros v' [H|H]; [left|right; exact H]. exists (m ++ t). split; [exact H|]. exists m, t. auto.
  - apply Hoth; [reflexivity|]. destruct Hr as [Hr|[[x Hr]|[m [Hm Hr]]]].
    + assert (Hk : exists k, v_last v = [k] /\ In k [kch "x"; KDelete; kch "D"; kch "~"]).
      { cbn [In] in Hr. destruct Hr as [<-|[<-|[<-|[<-|[]]]]]; eexists; (split; [reflexivity|cbn; auto]). }
      destruct Hk as [k [-> Hk]]. eapply steps_mono; [apply steps_cut; [exact Hk|exact Hs0]|]. intros v' [H1 [H2 H3]]. split; assumption.
    + rewrite Hr. eapply steps_mono; [apply steps_replace; exact Hs0|]. intros v' [H1 H2]. split; [exact H1|].
      destruct H2 as [[_ H2]|[_ H2]]; [exact H2|]. rewrite H2. exact Hli0.
    + rewrite Hr. eapply steps_mono; [apply steps_delete; [exact Hm|exact Hs0]|]. intros v' [H1 [H2 H3]]. split; assumption.
Qed.

(** * Sessions made of commands *)
Definition passes (k : key) : Prop :=
  match k with
  | KChar c => c <> c_tab /\ c <> c_nl
  | KBackspace | KDelete | KEsc => True
  | _ => False
  end.
Lemma vk_handle_other : forall E k v (Q : vi -> Prop), passes k ->
  vk (vi_core E k) v (fun _ => Q) -> vk (handle_key vi_core E k) v (fun d v' => d = false /\ Q v').
Proof.
  intros E k v Q Hp HC. unfold handle_key. apply vk_bind, vk_gete. intro s. apply vk_bind.
  destruct (cur_buf s) as [b|p]; [|intro; exact I]. intro s0. revert s0. cbv zeta.
  assert (Hother : vk (vi_core E k ;;; mod_ed skip_completions_hint ;;; ret false) v
     (fun d v' => vk (if e_wok E then ret d else fail EOther) v' (fun d v' => d = false /\ Q v'))).
  { apply vk_bind. eapply vk_mono; [exact HC|]. intros ? v' Hv'. apply vk_bind, vk_mod_ed, vk_ret.
    destruct (e_wok E); [apply vk_ret; auto|apply vk_fail]. }
  destruct k as [x|x|x| | | | | | | | | | |]; try contradiction; try (intro s0; apply vk_bind; exact Hother).
  destruct Hp as [P1 P2]. apply N.eqb_neq in P1, P2. rewrite P1, P2. intro s0. apply vk_bind; exact Hother.
Qed.
Lemma step_vi_core : forall E k v Q, step k v Q -> vk (vi_core E k) v (fun _ => Q).
Proof.
  intros E k v Q H. unfold vi_core. apply vk_getk.
  replace (vi_fuel v) with (S (3 * (length (v_last v) + length (v_cur v)) + 9)) by (unfold vi_fuel; lia). apply H.
Qed.
Lemma vk_run_steps : forall l v Q, Forall passes (map snd l) -> steps (map snd l) v Q ->
  vk (run_keys vi_core l) v (fun d v' => d = false /\ Q v').
Proof.
  induction l as [|[E k] l IH]; intros v Q Hp Hs; cbn [map snd steps run_keys] in *; [apply vk_ret; auto|].
  inversion Hp; subst. apply vk_bind. eapply vk_mono.
  - apply vk_handle_other; [assumption|]. apply step_vi_core. exact Hs.
  - intros d v' [-> H]. apply IH; assumption.
Qed.
Lemma run_keys_app : forall {K} (core : env -> key -> MK K unit) l l' x,
  run_keys core (l ++ l') x = bind (run_keys core l) (fun d => if d : bool then ret true else run_keys core l') x.
Proof.
  intros K core l. induction l as [|[E k] l IH]; intros l' x; cbn [app run_keys]; [reflexivity|].
  unfold bind. destruct (handle_key core E k x) as [[|] y| | |]; auto. rewrite IH. reflexivity.
Qed.
Lemma vk_run_app : forall l l' v Q,
  vk (run_keys vi_core l) v (fun d v' => d = false /\ vk (run_keys vi_core l') v' Q) ->
  vk (run_keys vi_core (l ++ l')) v Q.
Proof.
  intros l l' v Q H s. rewrite run_keys_app. specialize (H s). unfold bind.
  destruct (run_keys vi_core l (v, s)) as [d [v' s']| | |]; auto. destruct H as [-> H]. apply H.
Qed.

Lemma motion_passes : forall m, motion m -> Forall passes m.
Proof.
  intros m [c Hc|c x Hc N1 N2|c Hc]; cbn [str In] in Hc; one_of;
    repeat constructor; try assumption; discriminate.
Qed.
Lemma typed_passes : forall t, Forall typed t -> Forall passes t.
Proof. intros t H. eapply Forall_impl; [|exact H]. intros [] Hk; cbn in *; auto. Qed.

Lemma vk_esc_core : forall E n v, J n v ->
  vk (vi_core E KEsc) v (fun _ v' => J n v' /\ v_stack v' = []).
Proof.
  intros E n v HJ. unfold vi_core. apply vk_getk.
  replace (vi_fuel v) with (S (S (3 * (length (v_last v) + length (v_cur v)) + 8))) by (unfold vi_fuel; lia).
  apply vk_esc; [exact HJ|reflexivity].
Qed.
Lemma R_run_esc : forall l E v, (exists n, J n v) -> Forall passes (map snd l) ->
  steps (map snd l) v (fun v' => (exists m t, motion m /\ Forall typed t /\ changing (m ++ t) v') \/ inserting v') ->
  vk (run_keys vi_core (l ++ [(E, KEsc)])) v (fun d v' => d = false /\ R v').
Proof.
  intros l E v [n HJ] Hp Hs. apply vk_run_app. eapply vk_mono.
  - apply vk_and; [apply (vk_run_keys l n v HJ)|apply vk_run_steps; [exact Hp|exact Hs]].
  - intros d v1 [[n1 HJ1] [-> H1]]. split; [reflexivity|]. cbn [run_keys]. apply vk_bind. eapply vk_mono.
    + apply (vk_handle_other E KEsc v1 R I). unfold vi_core. apply vk_getk.
      replace (vi_fuel v1) with (S (S (3 * (length (v_last v1) + length (v_cur v1)) + 8))) by (unfold vi_fuel; lia).
      set (g := 3 * (length (v_last v1) + length (v_cur v1)) + 8).
      destruct H1 as [[m [t [Hm [Ht Hc]]]]|Hi].
      * eapply vk_mono; [apply vk_and; [eapply vk_esc; [exact HJ1|reflexivity]|apply esc_changing; exact Hc]|].
        intros ? v2 [[HJ2 S2] [L2 I2]]. split; [exists n1; exact HJ2|]. split; [exact S2|].
        unfold recorded. rewrite I2. right. split; [reflexivity|]. exists m, t. auto.
      * eapply vk_mono; [apply vk_and; [eapply vk_esc; [exact HJ1|reflexivity]|eapply esc_inserting; [exact HJ1|exact Hi]]|].
        intros ? v2 [[HJ2 S2] I2]. split; [exists n1; exact HJ2|]. split; [exact S2|]. apply recins_recorded. exact I2.
    + intros d v' [-> H]. apply vk_ret. auto.
Qed.

Lemma R_command : forall l v, command (map snd l) -> R v -> vk (run_keys vi_core l) v (fun d v' => d = false /\ R v').
Proof.
  intros l v Hc HR. assert (HR' := HR). destruct HR' as [[n HJ] [Hst Hr]].
  assert (Hgo : Forall passes (map snd l) -> steps (map snd l) v (fun v' => v_stack v' = [] /\ recorded v') ->
     vk (run_keys vi_core l) v (fun d v' => d = false /\ R v')).
  { intros Hp Hs. eapply vk_mono; [apply vk_and; [apply (vk_run_keys l n v HJ)|apply vk_run_steps; [exact Hp|exact Hs]]|].
    intros d v' [H1 [H2 H3]]. split; [exact H2|]. split; [exact H1|exact H3]. }
  assert (Hsame : forall v', v_stack v' = [] /\ v_last v' = v_last v /\ v_lastins v' = v_lastins v ->
     v_stack v' = [] /\ recorded v').
  { intros v' [H1 [H2 H3]]. split; [exact H1|]. unfold recorded in *. rewrite H2, H3. exact Hr. }
  assert (Hsplit : forall k t, map snd l = k :: t ++ [KEsc] -> exists l1 E, l = l1 ++ [(E, KEsc)] /\ map snd l1 = k :: t).
  { intros k t H. destruct l as [|[E0 k0] l]; [discriminate|]. cbn [map snd] in H. injection H as -> H.
    apply map_eq_app in H. destruct H as [l1 [l2 [-> [H1 H2]]]]. destruct l2 as [|[E2 k2] [|? ?]]; try discriminate.
    injection H2 as ->. exists ((E0, k) :: l1), E2. split; [reflexivity|]. cbn [map snd]. rewrite H1. reflexivity. }
  remember (map snd l) as cmd eqn:Ecmd. destruct Hc as [m Hm|c Hc| |c Hc|x N1 N2|m Hm| |c t Hc Ht|m t Hm Ht|].
  - apply Hgo; [apply motion_passes; exact Hm|]. eapply steps_mono; [apply steps_motion; assumption|exact Hsame].
  - assert (Hc' : In c (str "jku") \/ In (KChar c) [kch "x"; KDelete; kch "D"; kch "~"]).
    { cbn [str In] in *. unfold kch. one_of; auto 10. }
    assert (Hp : passes (KChar c)) by (cbn [str In] in Hc; one_of; split; discriminate).
    apply Hgo; [constructor; [exact Hp|constructor]|]. destruct Hc' as [Hc'|Hc'].
    + eapply steps_mono; [apply steps_other; auto|exact Hsame].
    + eapply steps_mono; [apply steps_cut; auto|]. intros v' [H1 [H2 H3]]. split; [exact H1|]. unfold recorded.
      rewrite H2, H3. left. cbn [In] in *. destruct Hc' as [<-|[E|[<-|[<-|[]]]]]; auto; discriminate.
  - apply Hgo; [repeat constructor|]. eapply steps_mono; [apply steps_cut; [cbn; auto|exact Hst]|].
    intros v' [H1 [H2 H3]]. split; [exact H1|]. unfold recorded. rewrite H2, H3. left. cbn. auto.
  - apply Hgo; [|eapply steps_mono; [apply steps_other; auto|exact Hsame]].
    unfold digit in Hc. repeat constructor; intros ->; unfold c_tab, c_nl in Hc; lia.
  - apply Hgo; [repeat constructor; try assumption; discriminate|].
    eapply steps_mono; [apply steps_replace; exact Hst|]. intros v' [H1 [[H2 H3]|[H2 H3]]]; [|apply Hsame; auto].
    split; [exact H1|]. unfold recorded. rewrite H2, H3. right. left. exists x. reflexivity.
  - apply Hgo; [constructor; [split; discriminate|apply motion_passes; exact Hm]|].
    eapply steps_mono; [apply steps_delete; assumption|]. intros v' [H1 [H2 H3]]. split; [exact H1|].
    unfold recorded. rewrite H2, H3. right. right. exists m. auto.
  - apply Hgo; [repeat constructor; discriminate|].
    eapply steps_mono; [apply steps_delete_line; exact Hst|exact Hsame].
  - destruct (Hsplit _ _ eq_refl) as [l1 [E [-> H1]]]. apply R_run_esc; [exists n; exact HJ| |]; rewrite H1.
    + constructor; [cbn [str In] in Hc; one_of; split; discriminate|apply typed_passes; exact Ht].
    + eapply steps_mono; [apply steps_insert; [exact Hc|apply typed_plain; exact Ht|exact Hst]|]. auto.
  - destruct (Hsplit (kch "c") (m ++ t)) as [l1 [E [-> H1]]].
    { rewrite app_assoc. reflexivity. }
    apply R_run_esc; [exists n; exact HJ| |]; rewrite H1.
    + constructor; [split; discriminate|]. apply Forall_app. split; [apply motion_passes; exact Hm|apply typed_passes; exact Ht].
    + eapply steps_mono; [apply steps_change; [exact Hm|exact Ht|exact Hst]|]. intros v' [H|H]; [left|right; exact H].
      exists m, t. auto.
  - destruct l as [|[E k] [|? ?]]; try discriminate. injection Ecmd as <-. cbn [run_keys].
    apply vk_bind. eapply vk_mono.
    + apply (vk_handle_other E (kch ".") v R); [split; discriminate|].
      eapply vk_mono; [apply vk_and; [apply (vk_vi_core E (kch ".") n v HJ)|apply R_repeat; exact HR]|].
      intros ? v' [H1 H2]. split; assumption.
    + intros d v' [-> H]. apply vk_ret. auto.
Qed.

Lemma R_commands : forall cmds l v, Forall command cmds -> map snd l = concat cmds -> R v ->
  vk (run_keys vi_core l) v (fun d v' => d = false /\ R v').
Proof.
  induction cmds as [|cmd cmds IH]; intros l v Hc Hl HR; cbn [concat] in Hl.
  - destruct l; [|discriminate]. apply vk_ret. auto.
  - inversion Hc; subst. apply map_eq_app in Hl. destruct Hl as [l1 [l2 [-> [H3 H4]]]]. apply vk_run_app.
    eapply vk_mono; [apply R_command; [rewrite H3; assumption|exact HR]|]. intros d v' [-> H]. split; [reflexivity|].
    apply IH; assumption.
Qed.
(** From the start: text, Esc, commands. *)
Lemma R_session : forall t cmds E l, Forall typed t -> Forall command cmds ->
  map snd l = t ++ KEsc :: concat cmds ->
  vk (vi_init E ;;; run_keys vi_core l) vi_new (fun d v' => d = false /\ R v').
Proof.
  intros t cmds E l Ht Hc Hl. apply vk_bind. unfold vi_init. apply vk_bind, vk_buf_mut, vk_set_editor_mode.
  apply map_eq_app in Hl. destruct Hl as [l1 [l2 [-> [H1 H2]]]].
  destruct l2 as [|[E2 k2] l2]; [discriminate|]. cbn [map snd] in H2. injection H2 as -> H2.
  replace (l1 ++ (E2, KEsc) :: l2) with ((l1 ++ [(E2, KEsc)]) ++ l2) by (rewrite <- app_assoc; reflexivity).
  apply vk_run_app. eapply vk_mono.
  - apply R_run_esc; [exists 0; exact J_new|rewrite H1; apply typed_passes; exact Ht|]. rewrite H1.
    eapply steps_mono; [apply plain_inserting; [apply typed_plain; exact Ht|]|intros v' H; right; exact H].
    split; [reflexivity|]. exists (ch "i"). split; [reflexivity|]. cbn. auto.
  - intros d v' [-> H]. split; [reflexivity|]. apply (R_commands cmds); assumption.
Qed.

(** * The statements about sessions *)
Lemma vi_terminates : forall E l s, (vi_init E ;;; run_keys vi_core l) (vi_new, s) <> OFuel.
Proof.
  intros E l s H. pose proof (vk_session E l s) as V. rewrite H in V. exact V.
Qed.
Lemma vi_unfuelled : forall E l s d v s1 E' k f,
  (vi_init E ;;; run_keys vi_core l) (vi_new, s) = ORet d (v, s1) -> vi_fuel v <= f ->
  vi_core E' k (v, s1) <> OFuel /\ vi_core_fuel f E' k (v, s1) = vi_core E' k (v, s1).
Proof.
  intros E l s d v s1 E' k f H Hf. pose proof (vk_session E l s) as V. rewrite H in V. destruct V as [n HJ].
  pose proof (vk_vi_core E' k n v HJ s1) as V.
  assert (Hn : vi_core E' k (v, s1) <> OFuel) by (intro C; rewrite C in V; exact V).
  split; [exact Hn|]. exact (fuel_more _ f E' k (v, s1) Hf Hn).
Qed.
Lemma esc_normal : forall E l s d v s1 E' d' v' s2,
  (vi_init E ;;; run_keys vi_core l) (vi_new, s) = ORet d (v, s1) ->
  handle_key vi_core E' KEsc (v, s1) = ORet d' (v', s2) -> d' = false /\ vmode_of v' = MNormal.
Proof.
  intros E l s d v s1 E' d' v' s2 H H'. pose proof (vk_session E l s) as V. rewrite H in V. destruct V as [n HJ].
  pose proof (vk_handle_other E' KEsc v (fun v' => J n v' /\ v_stack v' = []) I (vk_esc_core E' n v HJ) s1) as V.
  rewrite H' in V. destruct V as [-> [_ V]]. split; [reflexivity|]. unfold vmode_of. rewrite V. reflexivity.
Qed.
Lemma commands_normal : forall E t cmds l s d v s',
  Forall typed t -> Forall command cmds -> map snd l = t ++ KEsc :: concat cmds ->
  (vi_init E ;;; run_keys vi_core l) (vi_new, s) = ORet d (v, s') -> d = false /\ vmode_of v = MNormal.
Proof.
  intros E t cmds l s d v s' Ht Hc Hl H. pose proof (R_session t cmds E l Ht Hc Hl s) as V. rewrite H in V.
  destruct V as [-> [_ [V _]]]. split; [reflexivity|]. unfold vmode_of. rewrite V. reflexivity.
Qed.
