(** The mode stack of the Vi key map: its possible shapes, Esc (C41) and
    termination of the recursion through [repeat] (C39). *)
From Verif Require Import Base Utf8 BufferModel UtilModel HistoryModel EditorState EditorModel
  KeymapModel ViModel MonadLemmas EditorLemmas ViEffects.
Local Open Scope monad_scope.

(** Keys that keep insert mode. *)
Definition plain (k : key) : Prop :=
  match k with
  | KChar _ | KBackspace | KDelete | KLeft | KRight | KHome | KEnd => True
  | _ => False
  end.
Lemma movement_plain : forall k, is_movement_key k = true -> plain k.
Proof. intros []; cbn; intro H; try exact I; discriminate. Qed.

Definition base (l : list vmode) : Prop := l = [] \/ l = [MInsert].
Inductive shape : list vmode -> Prop :=
| sh_nil : shape []
| sh_ins : shape [MInsert]
| sh_rep : shape [MReplace]
| sh_del : forall d l, base l -> shape (MDelete d :: l)
| sh_mv : forall m, direct m -> shape [MMoveToChar m]
| sh_mvd : forall m d l, direct m -> base l -> shape (MMoveToChar m :: MDelete d :: l)
| sh_g : shape [MG]
| sh_gd : forall d l, base l -> shape (MG :: MDelete d :: l).

Definition hasdel (l : list vmode) : Prop := exists d, In (MDelete d) l.
Definition insert_key (k : key) : Prop := exists c, k = KChar c /\ In c (str "iaAIsc").

Record J (n : nat) (v : vi) : Prop := mkJ {
  j_shape : shape (v_stack v);
  j_last : Forall plain (v_last v);
  j_len : length (v_last v) <= n;
  j_cur : hasdel (v_stack v) -> Forall plain (v_cur v) /\ length (v_cur v) <= n;
  j_rep : In MReplace (v_stack v) -> 1 <= n;
  j_lastins : forall k, v_lastins v = Some k -> insert_key k;
  j_curins : forall k, v_curins v = Some k -> insert_key k;
  j_lcm : forall c m, v_lcm v = Some (c, m) -> direct m
}.

Lemma J_mono : forall n m v, J n v -> n <= m -> J m v.
Proof.
  intros n m v [H1 H2 H3 H4 H5 H6 H7 H8] Hnm. constructor; auto; try lia.
  - intro H. destruct (H4 H). split; [assumption|lia].
  - intro H. specialize (H5 H). lia.
Qed.

Lemma base_nil : base [].
Proof. left. reflexivity. Qed.
Lemma base_ins : base [MInsert].
Proof. right. reflexivity. Qed.
Lemma direct_ru : direct RightUntil. Proof. split; discriminate. Qed.
Lemma direct_ra : direct RightAt. Proof. split; discriminate. Qed.
Lemma direct_lu : direct LeftUntil. Proof. split; discriminate. Qed.
Lemma direct_la : direct LeftAt. Proof. split; discriminate. Qed.
#[local] Hint Resolve base_nil base_ins direct_ru direct_ra direct_lu direct_la : core.
Lemma base_shape : forall l, base l -> shape l.
Proof. intros l [->| ->]; constructor. Qed.
Lemma base_nodel : forall l, base l -> ~ hasdel l.
Proof. intros l [->| ->] [d H]; cbn in H; intuition discriminate. Qed.
Lemma base_norep : forall l, base l -> ~ In MReplace l.
Proof. intros l [->| ->] H; cbn in H; intuition discriminate. Qed.

Ltac vsimp := cbn [abort_mode after_movement leave_mode enter_mode enter_mode_fresh is_insert is_normal is_tilde
  negb v_stack v_cur v_last v_curins v_lastins v_count v_sec v_lcount v_reset v_lcm
  vset_stack vset_cur vset_last vset_curins vset_lastins vset_count vset_sec vset_lcount vset_reset
  vset_lcm vi_set_last1 vmode_of tl fst snd length app].
Ltac vsimp_in H := cbn [abort_mode after_movement leave_mode enter_mode enter_mode_fresh is_insert is_normal is_tilde
  negb v_stack v_cur v_last v_curins v_lastins v_count v_sec v_lcount v_reset v_lcm
  vset_stack vset_cur vset_last vset_curins vset_lastins vset_count vset_sec vset_lcount vset_reset
  vset_lcm vi_set_last1 vmode_of tl fst snd length app] in H.

Lemma hasdel_in : forall d l, hasdel (MDelete d :: l).
Proof. intros d l. exists d. left. reflexivity. Qed.
Lemma hasdel_in2 : forall m d l, hasdel (m :: MDelete d :: l).
Proof. intros m d l. exists d. right. left. reflexivity. Qed.
Lemma hasdel_no1 : forall m, (forall d, m <> MDelete d) -> ~ hasdel [m].
Proof. intros m H [d [E|[]]]. exact (H d E). Qed.
Lemma hasdel_nil : ~ hasdel [].
Proof. intros [d []]. Qed.

(** Proving [J] field by field. *)
Ltac jstk :=
  match goal with
  | H : hasdel [] |- _ => destruct (hasdel_nil H)
  | H : hasdel [_] |- _ => exfalso; revert H; apply hasdel_no1; intros ? ?; discriminate
  | H : base ?l, K : hasdel ?l |- _ => destruct (base_nodel l H K)
  | H : base ?l, K : In MReplace ?l |- _ => destruct (base_norep l H K)
  | H : In MReplace _ |- _ => cbn [In] in H;
      repeat match goal with K : _ \/ _ |- _ => destruct K end; try discriminate; try contradiction;
      try (match goal with B : base ?l, K : In MReplace ?l |- _ => destruct (base_norep l B K) end)
  end.
Ltac jauto := constructor; vsimp;
  [ solve [constructor; auto | apply base_shape; assumption | assumption]
  | solve [auto | repeat constructor; auto]
  | solve [auto; lia]
  | intro; solve [jstk | auto | split; [solve [auto | repeat constructor; auto]|lia]]
  | intro; solve [jstk | auto; lia]
  | solve [auto | intros ? Ejj; discriminate]
  | solve [auto | intros ? Ejj; discriminate]
  | solve [auto] ].

Lemma J_abort : forall n v, J n v -> J n (abort_mode v).
Proof.
  intros n v [H1 H2 H3 H4 H5 H6 H7 H8]. jauto.
Qed.

(** Moving in normal mode, or finishing a deletion or a character search. *)
Definition moving (v : vi) : Prop :=
  match v_stack v with [] => True | MDelete _ :: _ | MMoveToChar _ :: _ | MG :: _ => True | _ => False end.

Lemma J_after_movement : forall n v, J n v -> moving v -> J n (after_movement v).
Proof.
  intros n [st cur lst ci li c sc lc r lm] [H1 H2 H3 H4 H5 H6 H7 H8] Hm. unfold moving in Hm.
  cbn [v_stack v_last v_cur v_lastins v_curins v_lcm] in *.
  inversion H1; subst; try contradiction; unfold after_movement, vmode_of; vsimp;
    try (destruct (H4 (hasdel_in _ _)) as [K1 K2]); try (destruct (H4 (hasdel_in2 _ _ _)) as [K1 K2]);
    try (match goal with H : base _ |- _ => destruct H as [->| ->] end); vsimp; jauto.
Qed.

(** Loops that leave the key map's state alone. *)
Lemma vk_mfor_same : forall {A} (body : A -> MV unit) l v (Q : unit -> vi -> Prop),
  (forall x (Q : unit -> vi -> Prop), Q tt v -> vk (body x) v Q) -> Q tt v -> vk (mfor l body) v Q.
Proof.
  intros A body l v Q H HQ. eapply vk_mono.
  - apply (vk_mfor body (fun v' => v' = v)); [|reflexivity]. intros x v' ->. apply H. reflexivity.
  - intros [] v' ->. exact HQ.
Qed.
Lemma vk_Nloop_same : forall (m : ME bool) n v (Q : unit -> vi -> Prop),
  nofuel m -> Q tt v -> vk (Nloop n (lift m)) v Q.
Proof.
  intros m n v Q Hm HQ. eapply vk_mono.
  - apply (vk_Nloop (lift m) (fun v' => v' = v)); [|reflexivity]. intros v' ->. apply vk_lift; auto.
  - intros [] v' ->. exact HQ.
Qed.

Ltac vm1 :=
  match goal with
  | |- vk (set_mode _ _) _ _ => apply vk_set_mode
  | |- vk (set_mode_preserve_last _ _) _ _ => apply vk_smpl
  | |- vk (pop_mode _) _ _ => apply vk_pop_mode
  | |- vk (pop_mode_after_movement _ _) _ _ => apply vk_pop_am
  | |- vk (normal_mode_abort _) _ _ => apply vk_abort
  | |- vk (set_editor_mode _) _ _ => apply vk_set_editor_mode
  | |- vk (buf_mut _) _ _ => apply vk_buf_mut
  | |- vk mcr _ _ => apply vk_mcr; intro
  | |- vk (vi_common _ _) _ _ => apply vk_common
  | |- vk (push_cur _) _ _ => apply vk_modk
  | |- vk (push_last _) _ _ => apply vk_modk
  | |- vk (mfor _ (fun _ => tilde_step _)) _ _ =>
      apply vk_mfor_same; [intros ? ? ?; apply vk_tilde; assumption|]
  | |- vk (Nloop _ (lift _)) _ _ => apply vk_Nloop_same; [solve [auto with nf]|]
  | _ => vk1
  end.
Ltac vm := repeat vm1.

(** A key other than [.] in normal mode *)
Lemma vk_normal : forall rec E k n v, J n v -> v_stack v = [] -> kis k "." = false ->
  vk (vi_normal rec E k) v (fun _ => J (S n)).
Proof.
  intros rec E k n v HJ Hst Hk.
  assert (HS : J (S n) v) by (apply (J_mono n); [exact HJ|lia]).
  assert (Hmov : forall v', J (S n) v' -> v_stack v' = [] -> J (S n) (after_movement v')).
  { intros v' H1 H2. apply J_after_movement; [exact H1|]. unfold moving. rewrite H2. exact I. }
  destruct v as [st cur lst ci li c sc lc r lm]. cbn [v_stack] in Hst. subst st.
  destruct HJ as [H1 H2 H3 H4 H5 H6 H7 H8]. cbn [v_stack v_last v_cur v_lastins v_curins v_lcm] in *.
  assert (Hpam : J (S n) (after_movement (mkVi [] cur lst ci li c sc lc r lm))) by (apply Hmov; [exact HS|reflexivity]).
  unfold vi_normal. destruct k as [x|x|x| | | | | | | | | | |]; try solve [vm; exact Hpam | vm; exact HS | vm; jauto].
  2: { destruct (is_char x "r"); vm; [jauto|exact HS]. }
  cbn [kis] in Hk. rewrite Hk.
  assert (Hik : In x (str "iaAIsc") -> forall k, Some (KChar x) = Some k -> insert_key k).
  { intros Hin k [= <-]. exists x. split; [reflexivity|exact Hin]. }
  assert (Hins : forall s, x = ch s -> In (ch s) (str "iaAIsc") ->
            vk (modk (vset_lastins (Some (KChar x))) ;;; set_mode E MInsert) (mkVi [] cur lst ci li c sc lc r lm)
               (fun _ v' => J (S n) v' /\ J (S n) (vset_count 0 (vset_lcount (v_count v') v')))).
  { intros s Hx Hin. subst x. specialize (Hik Hin). vm. vsimp. split; jauto. }
  assert (Htc : forall m k, vk (vi_move_to_char E k m) (mkVi [] cur lst ci li c sc lc r lm) (fun _ => J (S n))).
  { intros m k. apply vk_move_to_char; [assumption|]. intros v' S1 S2 S3 S4 S5 S6 _.
    assert (J (S n) v').
    { destruct v' as [st' cur' lst' ci' li' c' sc' lc' r' lm']. cbn [v_stack v_last v_cur v_lastins v_curins v_lcm] in *.
      subst. jauto. }
    split; [apply Hmov; assumption|apply J_abort; assumption]. }
  assert (Hki : forall s, is_char x s = true -> In (ch s) (str "iaAIsc") -> In x (str "iaAIsc")).
  { intros s Hx Hin. apply N.eqb_eq in Hx. subst x. exact Hin. }
  repeat match goal with
  | |- vk (if is_char x ?s then modk (vset_lastins _) ;;; set_mode _ MInsert else _) _ _ =>
      destruct (is_char x s) eqn:?;
      [eapply vk_mono; [apply (Hins s); [apply N.eqb_eq; assumption|cbn; auto 10]|]; intros ? ? [? ?]; assumption|]
  | |- vk (if is_char x ?s then (modk (vset_lastins _) ;;; set_mode _ MInsert) ;;; _ else _) _ _ =>
      destruct (is_char x s) eqn:?;
      [apply vk_bind; eapply vk_mono; [apply (Hins s); [apply N.eqb_eq; assumption|cbn; auto 10]|];
       intros ? ? [? ?]; vm; assumption|]
  | |- vk (if ?b then _ else _) _ _ => destruct b; [solve [vm; first [exact Hpam|exact HS|apply Htc|vsimp; jauto]]|]
  end.
  destruct (is_char x "d") eqn:Ed; cbn [orb].
  { vm. vsimp. jauto. }
  destruct (is_char x "c") eqn:Ec.
  { assert (Hc : In x (str "iaAIsc")) by (apply (Hki "c"%string Ec); cbn; auto 10).
    specialize (Hik Hc). vm. vsimp. jauto. }
  repeat match goal with
  | |- vk (if is_char x ?s then modk (vset_lastins _) ;;; set_mode _ MInsert else _) _ _ =>
      destruct (is_char x s) eqn:?;
      [eapply vk_mono; [apply (Hins s); [apply N.eqb_eq; assumption|cbn; auto 10]|]; intros ? ? [? ?]; assumption|]
  | |- vk (if is_char x ?s then (modk (vset_lastins _) ;;; set_mode _ MInsert) ;;; _ else _) _ _ =>
      destruct (is_char x s) eqn:?;
      [apply vk_bind; eapply vk_mono; [apply (Hins s); [apply N.eqb_eq; assumption|cbn; auto 10]|];
       intros ? ? [? ?]; vm; assumption|]
  | |- vk (if ?b then _ else _) _ _ => destruct b; [solve [vm; first [exact Hpam|exact HS|apply Htc|vsimp; jauto]]|]
  end.
  destruct ((48 <=? x)%N && (x <=? 57)%N).
  { vm. match goal with |- vk (if ?b then _ else _) _ _ => destruct b end; vm; [exact Hpam|vsimp; jauto]. }
  repeat match goal with
  | |- vk (if ?b then _ else _) _ _ => destruct b; [solve [vm; first [exact Hpam|exact HS|apply Htc|vsimp; jauto]]|]
  end.
  vm. exact HS.
Qed.

(** Deciding the chain of character comparisons for a given character *)
Ltac decide_chars :=
  repeat (match goal with
  | |- vk (if ?b then _ else _) _ _ =>
      let b' := eval vm_compute in b in
      match b' with true => change b with true | false => change b with false end
  end; cbv iota).

(** Entering insert mode from normal mode does not lengthen the command. *)
Lemma vk_insert_key : forall rec E k n v, J n v -> v_stack v = [] -> insert_key k ->
  vk (vi_normal rec E k) v (fun _ => J n).
Proof.
  intros rec E k n [st cur lst ci li c sc lc r lm] [H1 H2 H3 H4 H5 H6 H7 H8] Hst Hk.
  cbn [v_stack v_last v_cur v_lastins v_curins v_lcm] in *. subst st.
  assert (Hk' : forall j, Some k = Some j -> insert_key j) by (intros j [= <-]; exact Hk).
  destruct Hk as [x [-> Hx]]. cbn [str In] in Hx. unfold vi_normal.
  repeat match goal with H : _ \/ _ |- _ => destruct H as [<-|H] end; [..|contradiction];
    decide_chars; vm; decide_chars; vm; vsimp; jauto.
Qed.

(** Movements and counts after [d] or [c] *)
Definition delete_char (c : char) : Prop := In c (str "hlwWbBeEg ^$tfTF;,0123456789").
Lemma vk_normal_delete : forall rec E k n v d l, J n v -> v_stack v = MDelete d :: l ->
  match k with
  | KLeft | KRight | KBackspace | KHome | KEnd => True
  | KChar c => delete_char c
  | _ => False
  end ->
  vk (vi_normal rec E k) v (fun _ => J n).
Proof.
  intros rec E k n v d l HJ Hst Hk.
  assert (Hpam : J n (after_movement v)).
  { apply J_after_movement; [exact HJ|]. unfold moving. rewrite Hst. exact I. }
  assert (Hlcm := j_lcm _ _ HJ).
  assert (Htc : forall m c, m = RepeatMove \/ m = ReverseRepeat ->
     vk (vi_move_to_char E (KChar c) m) v (fun _ => J n)).
  { intros m k0 Hm. apply vk_move_to_char; [assumption|]. intros v' S1 S2 S3 S4 S5 S7 S6.
    assert (HJ' : J n v').
    { destruct S6 as [S6|S6]; [|destruct Hm; subst; destruct S6 as [[? ?] _]; congruence].
      destruct HJ as [H1 H2 H3 H4 H5 H6 H7 H8]. constructor; rewrite ?S1, ?S2, ?S3, ?S4, ?S6; assumption. }
    split; [apply J_after_movement|apply J_abort]; [exact HJ'| |exact HJ']. unfold moving. rewrite S1, Hst. exact I. }
  destruct v as [st cur lst ci li c sc lc r lm]. cbn [v_stack] in Hst. subst st.
  pose proof HJ as HJ'.
  destruct HJ as [H1 H2 H3 H4 H5 H6 H7 H8]. cbn [v_stack v_last v_cur v_lastins v_curins v_lcm] in *.
  assert (Hl : base l) by (inversion H1; assumption).
  destruct (H4 (hasdel_in _ _)) as [K1 K2].
  unfold vi_normal. destruct k as [x|x|x| | | | | | | | | | |]; try contradiction;
    try solve [vm; exact Hpam | vm; exact HJ'].
  unfold delete_char in Hk. cbn [str In] in Hk.
  repeat match goal with H : _ \/ _ |- _ => destruct H as [<-|H] end; [..|contradiction];
    decide_chars; vm; try exact Hpam; try (apply Htc; auto);
    try (match goal with |- vk (if ?b then _ else _) _ _ => destruct b end; vm; try exact Hpam); try (vsimp; jauto).
Qed.

Lemma movement_delete : forall k, is_movement_key k = true ->
  match k with
  | KLeft | KRight | KBackspace | KHome | KEnd => True
  | KChar c => delete_char c
  | _ => False
  end.
Proof.
  intros [c| | | | | | | | | | | | |] H; try exact I; try discriminate.
  cbn [is_movement_key] in H. apply existsb_exists in H. destruct H as [x [Hx E]]. apply N.eqb_eq in E. subst x.
  unfold delete_char. replace (str "hlwWbBeEg ^$tfTF;,0123456789") with (str "hlwWbBeEg ^$tfTF;," ++ str "0123456789")
    by reflexivity.
  apply in_or_app. left. exact Hx.
Qed.
Lemma digit_delete : forall c, ((48 <=? c) && (c <=? 57))%N = true -> delete_char c.
Proof.
  intros c H. apply andb_true_iff in H. destruct H as [H1 H2]. apply N.leb_le in H1, H2.
  assert (D : (c = 48 \/ c = 49 \/ c = 50 \/ c = 51 \/ c = 52 \/ c = 53 \/ c = 54 \/ c = 55 \/ c = 56 \/ c = 57)%N) by lia.
  unfold delete_char. cbn. intuition auto 50.
Qed.
Lemma kis_eq : forall k s, kis k s = true -> k = KChar (ch s).
Proof. intros [c| | | | | | | | | | | | |] s H; try discriminate. apply N.eqb_eq in H. subst. reflexivity. Qed.

(** A key after [d] or [c] *)
Lemma vk_delete : forall rec E k n v d l, J n v -> v_stack v = MDelete d :: l ->
  vk (vi_delete_or_change rec E k) v (fun _ => J (S n)).
Proof.
  intros rec E k n v d l HJ Hst.
  assert (HS : J (S n) v) by (apply (J_mono n); [exact HJ|lia]).
  assert (Hp : plain k -> forall c, J (S n) (vset_cur (v_cur v ++ [k]) (vset_count c v))).
  { intros Hk c. destruct HJ as [H1 H2 H3 H4 H5 H6 H7 H8]. rewrite Hst in H4. destruct (H4 (hasdel_in _ _)) as [K1 K2].
    constructor; vsimp; auto.
    - intros _. rewrite app_length. cbn [length]. split; [apply Forall_app; auto|lia]. }
  unfold vi_delete_or_change. apply vk_getk.
  destruct (is_movement_key k || (kis k "0" && (v_count v =? 0)%N)) eqn:Ek.
  { assert (Hd : plain k /\ match k with
      | KLeft | KRight | KBackspace | KHome | KEnd => True
      | KChar c => delete_char c
      | _ => False
      end).
    { apply orb_true_iff in Ek. destruct Ek as [Ek|Ek].
      - split; [apply movement_plain; exact Ek|apply movement_delete; exact Ek].
      - apply andb_true_iff in Ek. destruct Ek as [Ek _]. apply kis_eq in Ek. subst k. split; [exact I|].
        apply digit_delete. reflexivity. }
    destruct Hd as [Hd1 Hd2]. vm. eapply (vk_normal_delete rec E k (S n) _ d l); [|exact Hst|exact Hd2].
    apply Hp. exact Hd1. }
  destruct (match k with KChar c => ((48 <=? c) && (c <=? 57))%N | _ => false end) eqn:Edg.
  { destruct k; try discriminate. eapply vk_normal_delete; [exact HS|exact Hst|apply digit_delete; exact Edg]. }
  match goal with |- vk (if ?b then _ else _) _ _ => destruct b eqn:Edd end.
  - assert (Hk : plain k).
    { destruct k; try exact I; cbn in Edd; rewrite ?andb_false_l in Edd; discriminate. }
    specialize (Hp Hk 0%N). vm.
    destruct v as [st cur lst ci li c sc lc r lm]. cbn [v_stack] in Hst. subst st.
    destruct Hp as [H1 H2 H3 H4 H5 H6 H7 H8]. vsimp_in H1. vsimp_in H2. vsimp_in H3. vsimp_in H6. vsimp_in H7. vsimp_in H8.
    assert (Hl : base l) by (inversion H1; assumption). vsimp. jauto.
  - vm. apply J_abort. exact HS.
Qed.

(** A key after [g], [f] and the like *)
Lemma vk_search_char : forall E k n v m l, J n v -> v_stack v = MMoveToChar m :: l ->
  vk (vi_move_to_char E k m) v (fun _ => J (S n)).
Proof.
  intros E k n v m l HJ Hst. pose proof (j_lcm _ _ HJ) as Hl. apply vk_move_to_char; [exact Hl|].
  intros v' S1 S2 S3 S4 S5 S7 S6.
  assert (HJ' : J (S n) v').
  { destruct HJ as [H1 H2 H3 H4 H5 H6 H7 H8]. constructor; rewrite ?S1, ?S2, ?S3, ?S4; auto; try lia.
    - intros H. destruct (H4 H) as [K1 K2]. destruct S6 as [S6|[_ [c [-> S6]]]]; rewrite S6; [split; [auto|lia]|].
      rewrite app_length. cbn [length]. split; [apply Forall_app; split; [auto|repeat constructor]|lia]. }
  split; [apply J_after_movement|apply J_abort]; [exact HJ'| |exact HJ']. unfold moving. rewrite S1, Hst. exact I.
Qed.
Lemma vk_g : forall E k n v l, J n v -> v_stack v = MG :: l -> vk (vi_g E k) v (fun _ => J (S n)).
Proof.
  intros E k n v l HJ Hst.
  assert (HS : J (S n) v) by (apply (J_mono n); [exact HJ|lia]).
  assert (Hc : forall v', J (S n) v' -> J (S n) (vset_count 0 v')).
  { intros v' [H1 H2 H3 H4 H5 H6 H7 H8]. constructor; assumption. }
  assert (Hp : plain k -> J (S n) (vset_cur (v_cur v ++ [k]) v)).
  { intros Hk. destruct HJ as [H1 H2 H3 H4 H5 H6 H7 H8].
    constructor; vsimp; auto; try lia. intros H. destruct (H4 H) as [K1 K2].
    rewrite app_length. cbn [length]. split; [apply Forall_app; auto|lia]. }
  assert (Hm : plain k -> J (S n) (after_movement (vset_cur (v_cur v ++ [k]) v))).
  { intro Hk. apply J_after_movement; [auto|]. unfold moving. vsimp. rewrite Hst. exact I. }
  unfold vi_g. vm. destruct (kis k "e") eqn:Ee; [|destruct (kis k "E") eqn:Ee2].
  - apply kis_eq in Ee. subst k. vm. apply vk_finally. vm. apply Hc. apply Hm. exact I.
  - apply kis_eq in Ee2. subst k. vm. apply vk_finally. vm. apply Hc. apply Hm. exact I.
  - vm. apply Hc. destruct HS as [H1 H2 H3 H4 H5 H6 H7 H8]. jauto.
Qed.
Lemma vk_replace : forall E k n v, J n v -> v_stack v = [MReplace] -> vk (vi_replace E k) v (fun _ => J (S n)).
Proof.
  intros E k n v HJ Hst. pose proof (j_rep _ _ HJ) as Hn. rewrite Hst in Hn. specialize (Hn (or_introl eq_refl)).
  destruct v as [st cur lst ci li c sc lc r lm]. cbn [v_stack] in Hst. subst st.
  destruct HJ as [H1 H2 H3 H4 H5 H6 H7 H8]. cbn [v_stack v_last v_cur v_lastins v_curins v_lcm] in *.
  unfold vi_replace. apply vk_bind. destruct k; try (vm; vsimp; jauto).
  vm. apply vk_when; intros _; vm; [|vsimp; jauto].
  apply vk_mfor_same; [intros x Q HQ; vm; match goal with |- Q ?a _ => destruct a end; exact HQ|]. vm. vsimp. jauto.
Qed.

(** Insert mode: keys other than Esc *)
Definition K (n : nat) (v : vi) : Prop := J n v /\ v_stack v = [MInsert].
Definition is_esc (k : key) : bool := match k with KEsc => true | KCtrl c => is_char c "[" | _ => false end.
Lemma vk_insert_reset : forall n v, K n v -> vk insert_reset v (fun _ => K n).
Proof.
  intros n v [HJ Hst]. unfold insert_reset. vm. apply vk_when; intros _; [|split; assumption]. vm.
  destruct HJ as [H1 H2 H3 H4 H5 H6 H7 H8]. split; [|exact Hst].
  destruct v as [st cur lst ci li c sc lc r lm]. cbn [v_stack v_last v_cur v_lastins v_curins v_lcm] in *. subst st.
  assert (Hi : forall k, Some (kch "i") = Some k -> insert_key k).
  { intros k [= <-]. exists (ch "i"). split; [reflexivity|]. cbn. auto. }
  vsimp. jauto.
Qed.
Lemma vk_insert : forall rec E k n v, K n v -> is_esc k = false ->
  vk (vi_insert rec E k) v (fun _ => K (S n)).
Proof.
  intros rec E k n v HK Hk.
  assert (HS : forall m, K n m -> K (S n) m).
  { intros m [H1 H2]. split; [apply (J_mono n); [exact H1|lia]|exact H2]. }
  assert (Hpush : plain k -> forall v', K n v' -> K (S n) (vset_last (v_last v' ++ [k]) v')).
  { intros Hp v' [[H1 H2 H3 H4 H5 H6 H7 H8] H9]. split; [|exact H9]. constructor; vsimp; auto; try lia.
    - apply Forall_app; auto.
    - rewrite app_length. cbn [length]. lia.
    - rewrite H9. intro. jstk. }
  assert (Hmv : K (S n) (vset_reset true (vset_count 0 v))).
  { destruct HK as [[H1 H2 H3 H4 H5 H6 H7 H8] H9]. split; [|exact H9]. constructor; vsimp; auto; try lia.
    rewrite H9. intro. jstk. }
  unfold vi_insert. destruct k as [x|x|x| | | | | | | | | | |]; try discriminate; vm; try (apply HS; exact HK);
    try exact Hmv;
    try (eapply vk_mono; [apply vk_insert_reset; exact HK|]; intros ? v' Hv'; vm; apply Hpush; [exact I|exact Hv']).
  cbn [is_esc] in Hk. rewrite Hk. vm. apply HS. exact HK.
Qed.

Lemma core_S : forall f E k v (Q : unit -> vi -> Prop),
  vk (match vmode_of v with
    | MNormal => vi_normal (vi_core_fuel f E) E k
    | MInsert => vi_insert (vi_core_fuel f E) E k
    | MReplace => vi_replace E k
    | MDelete _ => vi_delete_or_change (vi_core_fuel f E) E k
    | MMoveToChar m => vi_move_to_char E k m
    | MG => vi_g E k
    | MTilde => pan PUnreach
    end) v Q -> vk (vi_core_fuel (S f) E k) v Q.
Proof. intros f E k v Q H. cbn [vi_core_fuel]. apply vk_getk. exact H. Qed.

Lemma vk_typed : forall f E l n v, Forall plain l -> K n v ->
  vk (mfor l (vi_core_fuel (S f) E)) v (fun _ => K (n + length l)).
Proof.
  intros f E l. induction l as [|k l IH]; intros n v Hl HK; cbn [mfor length].
  - apply vk_ret. rewrite Nat.add_0_r. exact HK.
  - inversion Hl; subst. apply vk_bind. eapply vk_mono.
    + apply core_S. unfold vmode_of. rewrite (proj2 HK). apply vk_insert; [exact HK|].
      destruct k; try reflexivity; contradiction.
    + intros [] v' Hv'. rewrite <- plus_n_Sm. exact (IH (S n) v' H2 Hv').
Qed.

(** Esc leaves every mode, and needs a recursion depth of two at most. *)
Lemma vk_esc : forall f E k n v, J n v -> is_esc k = true ->
  vk (vi_core_fuel (S (S f)) E k) v (fun _ v' => J n v' /\ v_stack v' = []).
Proof.
  intros f E k n v HJ Hk. apply core_S.
  assert (Hab : forall c, J n (vset_count c (abort_mode v))).
  { intro c. destruct HJ as [H1 H2 H3 H4 H5 H6 H7 H8]. jauto. }
  assert (Hins : v_stack v = [MInsert] -> vk (
    (v <- getk ;;
    when (0 <? v_count v)%N (
      modk (vset_lcount (v_count v)) ;;;
      Nloop (v_count v - 1) (
        v <- getk ;;
        modk (vset_last []) ;;;
        mfor (v_last v) (vi_core_fuel (S f) E) ;;;
        ret true) ;;;
      modk (vset_count 0)) ;;;
    lift (move_cursor_left E 1) ;;;
    pop_mode E)) v (fun _ v' => J n v' /\ v_stack v' = [])).
  { intro Hst. assert (HK : K n v) by (split; assumption).
    assert (Hlv : forall v', K n v' -> J n (leave_mode v') /\ v_stack (leave_mode v') = []).
    { intros v' [[H1 H2 H3 H4 H5 H6 H7 H8] H9]. unfold leave_mode. vsimp. rewrite H9. cbn [tl]. split; [jauto|reflexivity]. }
    vm. apply vk_when; intros _; vm; [|apply Hlv; exact HK].
    assert (HKc : forall x v', K n v' -> K n (vset_count x v')).
    { intros x v' [[H1 H2 H3 H4 H5 H6 H7 H8] H9]. split; [constructor; assumption|exact H9]. }
    eapply vk_mono; [apply (vk_Nloop _ (K n))|].
    - intros v' HK'. vm. eapply vk_mono.
      + apply (vk_typed f E (v_last v') 0); [apply (proj1 HK')|].
        destruct HK' as [[H1 H2 H3 H4 H5 H6 H7 H8] H9]. split; [|exact H9]. constructor; vsimp; auto; try lia.
        * rewrite H9. intro. jstk.
        * rewrite H9. intro. jstk.
      + intros ? v2 HK2. vm. destruct HK2 as [HJ2 Hs2]. split; [|exact Hs2].
        apply (J_mono (0 + length (v_last v'))); [exact HJ2|]. apply (j_len _ _ (proj1 HK')).
    - destruct HK as [[H1 H2 H3 H4 H5 H6 H7 H8] H9]. split; [constructor; assumption|exact H9].
    - intros ? v2 HK2. vm. apply Hlv. apply HKc. exact HK2. }
  assert (Hj0 : v_stack v = [] -> J n (vset_count 0 v) /\ v_stack (vset_count 0 v) = []).
  { intro H. destruct HJ as [H1 H2 H3 H4 H5 H6 H7 H8]. split; [constructor; assumption|exact H]. }
  assert (Hsh := j_shape _ _ HJ).
  unfold vmode_of. inversion Hsh as [Hs|Hs|Hs|d l Hb Hs|m Hm Hs|m d l Hm Hb Hs|Hs|d l Hb Hs]; clear Hsh.
  - unfold vi_normal. destruct k as [x|x|x| | | | | | | | | | |]; try discriminate.
    + cbn [is_esc] in Hk. apply N.eqb_eq in Hk. subst x. change (is_char (ch "[") "r") with false. vm.
      split; [exact HJ|auto].
    + vm. apply Hj0. auto.
  - unfold vi_insert. destruct k as [x|x|x| | | | | | | | | | |]; try discriminate; [|apply Hins; auto].
    cbn [is_esc] in Hk. rewrite Hk. apply Hins. auto.
  - unfold vi_replace. destruct k as [x|x|x| | | | | | | | | | |]; try discriminate; vm; (split; [apply Hab|reflexivity]).
  - unfold vi_delete_or_change. destruct k as [x|x|x| | | | | | | | | | |]; try discriminate; vm; cbn [is_movement_key kis andb orb];
      vm; (split; [apply (Hab 0%N)|reflexivity]).
  - unfold vi_move_to_char. destruct Hm as [M1 M2].
    destruct k as [x|x|x| | | | | | | | | | |]; try discriminate; vm; destruct m; try congruence;
      vm; (split; [apply (Hab 0%N)|reflexivity]).
  - unfold vi_move_to_char. destruct Hm as [M1 M2].
    destruct k as [x|x|x| | | | | | | | | | |]; try discriminate; vm; destruct m; try congruence;
      vm; (split; [apply (Hab 0%N)|reflexivity]).
  - assert (Hg : J n (vset_count 0 (abort_mode (vset_cur (v_cur v ++ [k]) v)))).
    { destruct HJ as [H1 H2 H3 H4 H5 H6 H7 H8]. jauto. }
    unfold vi_g. destruct k as [x|x|x| | | | | | | | | | |]; try discriminate; vm; cbn [kis]; vm;
      (split; [exact Hg|reflexivity]).
  - assert (Hg : J n (vset_count 0 (abort_mode (vset_cur (v_cur v ++ [k]) v)))).
    { destruct HJ as [H1 H2 H3 H4 H5 H6 H7 H8]. jauto. }
    unfold vi_g. destruct k as [x|x|x| | | | | | | | | | |]; try discriminate; vm; cbn [kis]; vm;
      (split; [exact Hg|reflexivity]).
Qed.

(** The main induction: [.] replays shorter and shorter commands. *)
Lemma vk_core : forall f E k n v, J n v -> n + 3 <= f -> vk (vi_core_fuel f E k) v (fun _ => J (S n)).
Proof.
  induction f as [|f IH]; intros E k n v HJ Hf; [lia|].
  assert (HS : J (S n) v) by (apply (J_mono n); [exact HJ|lia]).
  destruct (is_esc k) eqn:Ek.
  { destruct f as [|f']; [lia|]. eapply vk_mono; [apply vk_esc; [exact HS|exact Ek]|]. intros ? v' [H _]. exact H. }
  apply core_S. assert (Hsh := j_shape _ _ HJ).
  unfold vmode_of. inversion Hsh as [Hs|Hs|Hs|d l Hb Hs|m Hm Hs|m d l Hm Hb Hs|Hs|d l Hb Hs]; clear Hsh.
  2: { eapply vk_mono; [apply vk_insert; [split; [exact HJ|auto]|exact Ek]|]. intros ? v' [H _]. exact H. }
  2: { apply vk_replace; auto. }
  2: { eapply vk_delete; eauto. }
  2: { eapply vk_search_char; eauto. }
  2: { eapply vk_search_char; eauto. }
  2: { eapply vk_g; eauto. }
  2: { eapply vk_g; eauto. }
  destruct (kis k ".") eqn:Edot; [|apply vk_normal; auto].
  apply kis_eq in Edot. subst k. unfold vi_normal. decide_chars. unfold vi_repeat.
  set (c0 := if (v_count v =? 0)%N then if (v_lcount v =? 0)%N then 1%N else v_lcount v else v_count v).
  apply vk_bind, vk_modk. cbv zeta. apply vk_bind, vk_modk. apply vk_getk. apply vk_bind, vk_modk.
  vsimp. match goal with |- vk _ ?x _ => set (v0 := x) end.
  assert (HJ0 : J 0 v0).
  { destruct HJ as [H1 H2 H3 H4 H5 H6 H7 H8]. subst v0. constructor; vsimp; rewrite <- ?Hs; auto; try solve [constructor]; intro; jstk. }
  assert (Hkeys : Forall plain (v_last v) /\ length (v_last v) <= n) by (split; apply HJ).
  assert (Hs0 : v_stack v0 = []) by (subst v0; auto).
  assert (Hgo : forall keys m v1, length keys + m <= n -> J m v1 -> vk (mfor keys (vi_core_fuel f E)) v1 (fun _ => J n)).
  { induction keys as [|k keys IHk]; intros m v1 Hm HJ1; cbn [mfor].
    - apply vk_ret. apply (J_mono m); [exact HJ1|]. cbn in Hm. lia.
    - cbn [length] in Hm. apply vk_bind. eapply vk_mono; [apply (IH E k m); [exact HJ1|lia]|].
      intros ? v2 HJ2. apply (IHk (S m)); [lia|exact HJ2]. }
  assert (Hlast : forall v2, J n v2 -> J (S n) (vset_last (v_last v) v2)).
  { intros v2 [H1 H2 H3 H4 H5 H6 H7 H8]. constructor; vsimp; auto; try lia; try (apply Hkeys).
    - intro H. destruct (H4 H). split; [assumption|lia]. }
  assert (Hend : forall v1, J 0 v1 -> vk (mfor (v_last v) (vi_core_fuel f E) ;;;
      (v0 <- getk ;; match v_lastins v0 with Some _ => vi_core_fuel f E KEsc | None => ret tt end ;;;
       modk (vset_last (v_last v)))) v1 (fun _ => J (S n))).
  { intros v1 HJ1. apply vk_bind. eapply vk_mono; [apply (Hgo (v_last v) 0); [destruct Hkeys; lia|exact HJ1]|].
    intros ? v2 HJ2. apply vk_getk. apply vk_bind. destruct (v_lastins v2).
    - destruct f as [|[|f']]; [lia|lia|]. eapply vk_mono; [apply vk_esc; [exact HJ2|reflexivity]|].
      intros ? v3 [HJ3 _]. apply vk_modk. apply Hlast. exact HJ3.
    - apply vk_ret. apply vk_modk. apply Hlast. exact HJ2. }
  apply vk_bind. destruct (v_lastins v) as [ik|] eqn:Eli.
  - destruct f as [|f']; [lia|]. apply core_S. unfold vmode_of. rewrite Hs0.
    eapply vk_mono; [apply vk_insert_key; [exact HJ0|exact Hs0|apply (j_lastins _ _ HJ); exact Eli]|].
    intros ? v1 HJ1. apply Hend. exact HJ1.
  - apply vk_ret. apply Hend. exact HJ0.
Qed.
