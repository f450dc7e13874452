(** What [.] does: the proofs. *)
From Verif Require Import Base Utf8 BufferModel UtilModel HistoryModel EditorState EditorModel
  KeymapModel ViModel MonadLemmas EditorLemmas CursorProofs Lemmas BufferProofs EditorSpec EditorProofs
  EditorOps Tests Samples ViSpec ViEffects ViModes ViRepeat ViMotion ViKeys ViCommands ViInsert
  ViChangeSpec ViChange ViHint ViDotSpec.
Local Open Scope monad_scope.

(** * Keys typed and keys replayed *)

Lemma handle_passes : forall E k v s b, cur_buf s = Val b -> passes k -> e_wok E = true ->
  handle_key vi_core E k (v, s) =
    match vi_core E k (v, s) with
    | ORet _ (v', s') => ORet false (v', set_hint None s')
    | OErr e x => OErr e x
    | OPanic p => OPanic p
    | OFuel => OFuel
    end.
Proof.
  intros E k v s b Hb Hp He. unfold handle_key. unfold bind at 1. cbn [gete]. unfold bind at 1. rewrite Hb.
  assert (Ho : forall k', (done <- (vi_core E k' ;;; mod_ed skip_completions_hint ;;; ret false) ;;
      (if e_wok E then ret done else fail EOther)) (v, s) =
    match vi_core E k' (v, s) with
    | ORet _ (v', s') => ORet false (v', set_hint None s')
    | OErr e x => OErr e x
    | OPanic p => OPanic p
    | OFuel => OFuel
    end).
  { intro k'. rewrite He. unfold bind. destruct (vi_core E k' (v, s)) as [a [v' s']| | |]; reflexivity. }
  destruct k as [x|x|x| | | | | | | | | | |]; try contradiction; try apply Ho.
  destruct Hp as [P1 P2]. apply N.eqb_neq in P1, P2. cbv zeta. rewrite P1, P2. apply Ho.
Qed.

(** Without a working terminal no key is handled normally. *)
Lemma handle_broken : forall E k v s Q, e_wok E = false -> okv (handle_key vi_core E k) v s Q.
Proof.
  intros E k v s Q He. unfold handle_key. apply okv_gete. apply okv_bind. unfold okv at 1.
  destruct (cur_buf s); [|exact I]. cbv zeta. apply okv_bind. rewrite He.
  unfold okv at 1.
  match goal with |- match ?m with _ => _ end => destruct m as [aa [vv ss]| | |] end; exact I.
Qed.

Lemma set_hint_same : forall s, ed_hint s = None -> set_hint None s = s.
Proof. intros s H. destruct s. cbn in H. subst. reflexivity. Qed.

(** Enough fuel makes no difference. *)
Lemma fuel_same : forall f E k n v s, J n v ->
  vi_core_fuel f E k (v, s) = OFuel \/ vi_core_fuel f E k (v, s) = vi_core E k (v, s).
Proof.
  intros f E k n v s HJ. pose proof (vk_vi_core E k n v HJ s) as V.
  change (vi_core E k (v, s)) with (vi_core_fuel (vi_fuel v) E k (v, s)) in *.
  destruct (Nat.le_gt_cases (vi_fuel v) f) as [L|L].
  - right. apply fuel_more; [exact L|]. intro C. rewrite C in V. exact V.
  - destruct (vi_core_fuel f E k (v, s)) as [a x|e x|p|] eqn:Ef; auto; right; rewrite <- Ef;
      symmetry; apply fuel_more; try lia; rewrite Ef; discriminate.
Qed.

Definition well (v : vi) (s : ed) : Prop := (exists n, J n v) /\ viI (v, s) /\ ed_hint s = None.

Lemma well_step : forall E k v s, well v s ->
  match vi_core E k (v, s) with ORet _ (v', s') => well v' s' | _ => True end.
Proof.
  intros E k v s [[n HJ] [HI Hh]].
  pose proof (vk_vi_core E k n v HJ s) as V1. pose proof (kp_vi_core E k (v, s) HI) as V2.
  pose proof (hint_vi_core E k (v, s)) as V3.
  unfold wp in V2.
  destruct (vi_core E k (v, s)) as [a [v' s']| | |]; auto.
  split; [exact V1|]. split; [exact V2|]. unfold hkK, hk in V3. cbn [snd] in V3. congruence.
Qed.

Lemma well_cur : forall v s, well v s -> exists b, cur_buf s = Val b.
Proof. intros v s [_ [[[b [H _]] _] _]]. exists b. exact H. Qed.

Lemma replay : forall f E ks v s Q, e_wok E = true -> Forall passes ks -> well v s ->
  okv (run_keys vi_core (map (pair E) ks)) v s (fun d v' s' => d = false /\ Q v' s') ->
  okv (mfor ks (vi_core_fuel f E)) v s (fun _ v' s' => Q v' s').
Proof.
  intros f E ks. induction ks as [|k ks IH]; intros v s Q He Hp Hw H.
  - cbn [map run_keys] in H. destruct H as [_ H]. exact H.
  - inversion Hp as [|? ? Hk Hp']; subst. cbn [mfor]. apply okv_bind.
    cbn [map run_keys] in H. unfold okv, bind in H.
    destruct (well_cur _ _ Hw) as [b Hb]. rewrite (handle_passes E k v s b Hb Hk He) in H.
    pose proof (well_step E k v s Hw) as W. destruct Hw as [[n HJ] _].
    unfold okv at 1.
    destruct (fuel_same f E k n v s HJ) as [-> | ->]; [exact I|].
    destruct (vi_core E k (v, s)) as [a [v' s']| | |]; auto.
    apply IH; auto. rewrite set_hint_same in H; [|apply W]. exact H.
Qed.

(** * Counts *)

Lemma digit_exact : forall E d v s, digit d -> vmode_of v = MNormal -> (d = 48%N -> v_count v <> 0%N) ->
  vi_core E (KChar d) (v, s) = ORet tt (vset_count (sat (sat (v_count v * 10) + (d - 48))) v, s).
Proof.
  intros E d v s Hd Hm Hz. unfold vi_core, bind at 1. cbn [getk].
  replace (vi_fuel v) with (S (3 * (length (v_last v) + length (v_cur v)) + 9)) by (unfold vi_fuel; lia).
  cbn [vi_core_fuel]. unfold bind at 1. cbn [getk]. rewrite Hm.
  assert (H0 : is_char d "0" && (v_count v =? 0)%N = false).
  { apply andb_false_iff. unfold is_char. destruct (N.eqb_spec d (ch "0")) as [->|]; [|left; reflexivity].
    right. apply N.eqb_neq. apply Hz. reflexivity. }
  assert (Hr : ((48 <=? d) && (d <=? 57))%N = true).
  { apply andb_true_iff. destruct Hd. split; apply N.leb_le; lia. }
  assert (Hnc : forall x, ((48 <=? ch x) && (ch x <=? 57))%N = false -> is_char d x = false).
  { intros x Hx. apply N.eqb_neq. intros ->. congruence. }
  unfold vi_normal. rewrite Hr.
  repeat match goal with
  | |- context [is_char d ?x] =>
    lazymatch x with "0"%string => fail | _ => rewrite (Hnc x eq_refl) end
  end.
  cbn [orb]. cbv iota. unfold bind at 1. cbn [getk]. rewrite H0. reflexivity.
Qed.

Lemma digits_exact : forall E ds m v s, Forall digit ds -> e_wok E = true -> well v s -> vmode_of v = MNormal ->
  v_count v = sat m -> (m <> 0)%N ->
  run_keys vi_core (map (pair E) (map KChar ds)) (v, s) =
    ORet false (vset_count (sat (fold_left (fun n c => n * 10 + (c - 48))%N ds m)) v, s).
Proof.
  intros E. induction ds as [|d ds IH]; intros m v s Hds He Hw Hm Hc Hn; cbn [map].
  - cbn [run_keys fold_left]. rewrite <- Hc. destruct v. reflexivity.
  - inversion Hds; subst. cbn [run_keys]. unfold bind.
    destruct (well_cur _ _ Hw) as [b Hb].
    rewrite (handle_passes E _ v s b Hb (digit_passes d H1) He).
    pose proof (well_step E (KChar d) v s Hw) as W.
    rewrite digit_exact in W |- *; try assumption; try (rewrite Hc; unfold sat, u32_max; lia).
    rewrite set_hint_same by apply W. rewrite Hc, sat_step in *.
    rewrite (IH (m * 10 + (d - 48))%N); try assumption; try reflexivity. lia.
Qed.

Lemma has_number : forall n, (n <> 0)%N -> exists d ds, digit d /\ d <> 48%N /\ Forall digit ds /\ number (d :: ds) = n.
Proof.
  intro n. induction n as [n IH] using (well_founded_induction N.lt_wf_0). intro Hn.
  destruct (N.lt_ge_cases n 10) as [L|L].
  - exists (48 + n)%N, []. unfold digit, number. cbn [fold_left]. repeat split; try lia. constructor.
  - pose proof (N.div_mod' n 10) as Hd. pose proof (N.mod_lt n 10) as Hr.
    set (q := (n / 10)%N) in *. set (r := (n mod 10)%N) in *.
    assert (Q1 : (q < n)%N) by lia. assert (Q2 : (q <> 0)%N) by lia.
    destruct (IH q Q1 Q2) as [d [ds [D1 [D2 [D3 D4]]]]].
    exists d, (ds ++ [(48 + r)%N]). repeat split; try apply D1; try exact D2.
    + apply Forall_app. split; [exact D3|]. constructor; [|constructor]. unfold digit. lia.
    + unfold number in *. rewrite app_comm_cons, fold_left_app. rewrite D4. cbn [fold_left]. lia.
Qed.
Lemma has_count : forall n, (n <> 0)%N -> (n <= u32_max)%N ->
  exists d ds, digit d /\ d <> 48%N /\ Forall digit ds /\ count (map KChar (d :: ds)) n /\ sat (number (d :: ds)) = n.
Proof.
  intros n Hn Hu. destruct (has_number n Hn) as [d [ds [D1 [D2 [D3 D4]]]]].
  exists d, ds. repeat split; try apply D1; try exact D2; try exact D3.
  - replace n with (N.min (number (d :: ds)) 4294967295); [constructor; assumption|].
    rewrite D4. unfold u32_max in Hu. lia.
  - rewrite D4. unfold sat. lia.
Qed.

(** Keys typed after a count, from the state the count leaves. *)
Lemma strip_count : forall E ks v s Q N0, (N0 <> 0)%N -> (N0 <= u32_max)%N -> e_wok E = true -> well v s ->
  vmode_of v = MNormal -> v_count v = 0%N ->
  (forall dk, count dk N0 -> dk <> [] ->
    okv (run_keys vi_core (map (pair E) (dk ++ ks))) v s Q) ->
  okv (run_keys vi_core (map (pair E) ks)) (vset_count N0 v) s Q.
Proof.
  intros E ks v s Q N0 Hn Hu He Hw Hm Hc H.
  destruct (has_count N0 Hn Hu) as [d [ds [D1 [D2 [D3 [D4 D5]]]]]].
  specialize (H (map KChar (d :: ds)) D4 ltac:(discriminate)).
  unfold okv in *. rewrite map_app, run_keys_app in H. unfold bind in H.
  assert (R : run_keys vi_core (map (pair E) (map KChar (d :: ds))) (v, s) = ORet false (vset_count N0 v, s)).
  { cbn [map run_keys]. unfold bind. destruct (well_cur _ _ Hw) as [b Hb].
    rewrite (handle_passes E _ v s b Hb (digit_passes d D1) He).
    pose proof (well_step E (KChar d) v s Hw) as W.
    rewrite digit_exact in W |- *; try assumption; try (intro; contradiction).
    rewrite set_hint_same by apply W. rewrite Hc in *.
    change (sat (sat (0 * 10) + (d - 48))) with (sat (0 * 10 + (d - 48))) in *.
    rewrite (digits_exact E ds (0 * 10 + (d - 48))%N); try assumption; try reflexivity.
    - rewrite vset_count_2. rewrite <- D5. reflexivity.
    - destruct D1. lia. }
  rewrite R in H. exact H.
Qed.

(** * What is recorded *)

Definition object_keys (mk : list key) : Prop :=
  (exists k, mk = [k] /\ In k [kch "h"; KBackspace; kch "l"; kch " "; kch "^"; kch "$"; kch "w"; kch "W"; kch "b"; kch "B"]) \/
  (exists c x, mk = [KChar c; KChar x] /\ In c (str "ftFT") /\ x <> c_tab /\ x <> c_nl).
Lemma object_object_keys : forall U t c n mk i j, object U t c n mk i j -> object_keys mk.
Proof.
  intros U t c n mk i j [H H0 Hx|H _].
  - destruct H as [k Hk|k Hk|k Hk| |x p Hp|x p Hp|x p Hp|x p Hp];
      try (right; eexists _, x; split; [reflexivity|]; split; [cbn; auto 10|apply (Hx _ x eq_refl)]);
      left; eexists; (split; [reflexivity|]); cbn [In] in *; try tauto.
    destruct Hk as [<-|[<-|[]]]; [congruence|]. auto 10.
  - left. destruct H as [[] p Hp|[] p Hp]; cbn [word_keys]; eexists; (split; [reflexivity|]); cbn; auto 12.
Qed.
Lemma object_passes : forall mk, object_keys mk -> Forall passes mk.
Proof.
  intros mk [[k [-> Hk]]|[c [x [-> [Hc [H1 H2]]]]]].
  - constructor; [|constructor]. cbn [In] in Hk. one_of; try exact I; split; discriminate.
  - constructor; [|constructor; [|constructor]].
    + cbn [str In] in Hc. one_of; split; discriminate.
    + split; assumption.
Qed.

Definition noted (v : vi) (ins : option key) (ks : list key) (n : N) : Prop :=
  v_lastins v = ins /\ v_last v = ks /\ v_lcount v = n.

Lemma steps_object : forall mk v d l, object_keys mk -> v_stack v = MDelete d :: l -> base l ->
  steps mk v (fun v' => v_stack v' = l /\ v_count v' = 0%N /\ (l = [MInsert] -> v_reset v' = false) /\
    noted v' (v_curins v) (v_cur v ++ mk) (match mk with [_; _] => 0%N | _ => v_count (joined v) end)).
Proof.
  intros mk v d l Hm Hst Hl. destruct v as [st cur lst ci li c sc lc r lm]. cbn [v_stack v_count] in Hst. subst st.
  unfold noted. destruct Hm as [[k [-> Hk]]|[x [y [-> [Hx _]]]]]; cbn [steps].
  - cbn [In] in Hk. unfold kch in *. one_of; intros E f; apply core_S; cbn [vmode_of v_stack]; unfold vi_delete_or_change;
      vm; decide_chars; vm; unfold vi_normal; decide_chars; vm; unfold after_movement, vmode_of; vsimp;
      destruct Hl as [->| ->]; vsimp; repeat split; auto; discriminate.
  - cbn [str In] in Hx. unfold kch; one_of; intros E f; apply core_S; cbn [vmode_of v_stack]; unfold vi_delete_or_change; vm; decide_chars; vm;
      unfold vi_normal; decide_chars; vm; intros E' f'; apply core_S; cbn [vmode_of v_stack];
      vsimp; (apply vk_find; [split; discriminate|]); unfold after_movement, vmode_of; vsimp;
      destruct Hl as [->| ->]; vsimp; rewrite <- app_assoc; repeat split; auto; discriminate.
Qed.

Lemma step_op : forall o v, v_stack v = [] ->
  step (op_key o) v (fun v' => (exists d, v_stack v' = MDelete d :: op_stack o) /\ v_count v' = 0%N /\
    v_sec v' = v_count v /\ v_curins v' = op_ins o /\ v_cur v' = match o with Del => [kch "d"] | Chg => [] end).
Proof.
  intros o v Hst. destruct v as [st cur lst ci li ct sc lc r lm]. cbn [v_stack] in Hst. subst st.
  destruct o; cbn [op_key op_stack op_ins]; stepn; decide_chars; vm; vsimp; repeat split; eexists; reflexivity.
Qed.

Lemma step_cut : forall k v, In k [kch "x"; KDelete; kch "D"] -> v_stack v = [] ->
  step k v (fun v' => noted v' None [k] (if kis k "D" then 0%N else v_count v)).
Proof.
  intros k v Hk Hst. destruct v as [st cur lst ci li ct sc lc r lm]. cbn [v_stack] in Hst. subst st. unfold noted.
  cbn [In] in *. one_of; stepn; vsimp; auto.
Qed.

(** Insertions *)
Definition enters (k : key) (t : list key) (n m : N) (v : vi) : Prop :=
  v_stack v = [MInsert] /\ v_reset v = false /\ v_count v = n /\ noted v (Some k) t m.
Lemma step_enter : forall c v, In c (str "iaAIs") -> v_stack v = [] ->
  step (KChar c) v (enters (KChar c) [] (if is_char c "s" then 0%N else v_count v) (if is_char c "s" then v_count v else 0%N)).
Proof.
  intros c v Hc Hst. destruct v as [st cur lst ci li ct sc lc r lm]. cbn [v_stack] in Hst. subst st.
  unfold enters, noted. cbn [str In] in Hc. one_of; stepn; vsimp; auto 10.
Qed.
Lemma steps_enters : forall tk k t n m v, Forall typed tk -> enters k t n m v ->
  steps tk v (enters k (t ++ tk) n m).
Proof.
  induction tk as [|x tk IH]; intros k t n m v Ht Hv; cbn [steps]; [rewrite app_nil_r; exact Hv|].
  inversion Ht; subst. intros E f. apply core_S. destruct Hv as [H3 [H4 [H5 [H6 [H7 H8]]]]].
  unfold vmode_of. rewrite H3.
  assert (Hr : forall (mm : MV unit), (forall v' (Q : unit -> vi -> Prop), Q tt v' -> vk mm v' Q) ->
    vk (insert_reset ;;; push_last x ;;; mm) v (fun _ v' => steps tk v' (enters k (t ++ x :: tk) n m))).
  { intros mm Hm. apply vk_bind. unfold insert_reset. vm. rewrite H4. apply vk_when; [discriminate|]. intros _. vm. apply Hm.
    replace (t ++ x :: tk) with ((t ++ [x]) ++ tk) by (rewrite <- app_assoc; reflexivity).
    apply IH; [assumption|]. unfold enters, noted. vsimp. rewrite H7. auto 10. }
  unfold vi_insert. destruct x as [x|x|x| | | | | | | | | | |]; try contradiction; apply Hr; intros; vm;
    repeat match goal with a : unit |- _ => destruct a end; assumption.
Qed.
Lemma esc_enters : forall f E k t n m v, Forall typed t -> enters k t n m v ->
  vk (vi_core_fuel (S (S f)) E KEsc) v (fun _ v' => noted v' (Some k) t (if (n =? 0)%N then m else n)).
Proof.
  intros f E k t n m v Ht Hv. apply core_S. unfold vmode_of. rewrite (proj1 Hv). unfold vi_insert.
  assert (Hl : forall v' n' m', enters k t n' m' v' -> noted (leave_mode v') (Some k) t m').
  { intros v' n' m' Hv'. apply Hv'. }
  vm. apply vk_when; intros Hn; vm.
  - assert (n <> 0%N) as Hz. { destruct Hv as [_ [_ [Hc _]]]. intros ->. rewrite Hc in Hn. discriminate. }
    apply N.eqb_neq in Hz. rewrite Hz.
    destruct Hv as [V1 [V2 [V3 [V4 [V5 V6]]]]]. rewrite V3.
    eapply vk_mono; [apply (vk_Nloop _ (enters k t n n))|].
    + intros v' [W1 [W2 [W3 [W4 [W5 W6]]]]]. vm. rewrite W5.
      eapply vk_mono; [apply steps_mfor; apply (steps_enters t k [] n n); [exact Ht|]|].
      * unfold enters, noted. vsimp. auto 10.
      * intros ? v2 Hv2. vm. exact Hv2.
    + unfold enters, noted. vsimp. auto 10.
    + intros ? v2 Hv2. vm. apply (Hl (vset_count 0 v2) 0%N n). unfold enters, noted in *. vsimp. tauto.
  - assert (n = 0%N) as ->. { destruct Hv as [_ [_ [Hc _]]]. rewrite Hc in Hn. apply N.ltb_ge in Hn. lia. }
    apply (Hl v 0%N m). exact Hv.
Qed.

(** * What is remembered, as the user sees it *)

Definition entry_keys (ins : option key) (ks : list key) : list key :=
  match ins with Some k => k :: ks ++ [KEsc] | None => ks end.
Definition memo (v : vi) (K : list key) (m : N) : Prop :=
  exists ins ks lc, noted v ins ks lc /\ K = entry_keys ins ks /\
    (ins = None -> forall a, K <> a ++ [KEsc]) /\ (if (lc =? 0)%N then 1%N else lc) = m /\ (lc <= u32_max)%N.

Lemma typing_steps : forall P ks v s Q, Forall passes ks -> steps ks v Q -> typing P ks v s (fun v' _ => Q v').
Proof.
  intros P ks v s Q Hp H l Hl _. subst ks. pose proof (vk_run_steps l v Q Hp H s) as V. unfold okv.
  destruct (run_keys vi_core l (v, s)) as [d [v' s']| | |]; auto.
Qed.
Lemma typing_and : forall P ks v s Q Q', typing P ks v s Q -> typing P ks v s Q' ->
  typing P ks v s (fun v' s' => Q v' s' /\ Q' v' s').
Proof.
  intros P ks v s Q Q' H H' l Hl HP. specialize (H l Hl HP). specialize (H' l Hl HP). unfold okv in *.
  destruct (run_keys vi_core l (v, s)) as [d [v' s']| | |]; auto. tauto.
Qed.

Lemma given_front : forall ks K n, given ks K n ->
  (exists k r, K = k :: r /\ k <> kch "d" /\ k <> kch "c") -> exists dk, count dk n /\ ks = dk ++ K.
Proof.
  intros ks K n [dk n0 K0 H|dk1 n1 o dk2 n2 K0 Ho H1 H2] [k [r [E [N1 N2]]]].
  - exists dk. auto.
  - injection E as -> ->. destruct Ho as [<-|[<-|[]]]; congruence.
Qed.
Lemma given_op : forall o ks K n, given ks (op_key o :: K) n ->
  exists dk1 n1 dk2 n2, count dk1 n1 /\ count dk2 n2 /\ ks = dk1 ++ op_key o :: dk2 ++ K /\
    n = N.min (n1 * n2) 4294967295.
Proof.
  intros o ks K n H. inversion H as [dk n0 K0 Hd|dk1 n1 o' dk2 n2 K0 Ho H1 H2]; subst.
  - exists dk, n, [], 1%N. split; [exact Hd|]. split; [constructor|]. split; [reflexivity|].
    pose proof (count_max _ _ Hd). unfold u32_max in *. lia.
  - exists dk1, n1, dk2, n2. auto.
Qed.
Lemma stored_n : forall dk n, count dk n -> (if (stored dk n =? 0)%N then 1%N else stored dk n) = n.
Proof.
  intros dk n H. pose proof (stored_move dk n (vset_count (stored dk n) vi_new) H eq_refl) as M.
  unfold move_count in M. vsimp_in M. exact M.
Qed.
Lemma stored_max : forall dk n, count dk n -> (stored dk n <= u32_max)%N.
Proof. intros dk n H. pose proof (count_max _ _ H). destruct dk; cbn [stored]; [unfold u32_max|]; lia. Qed.

Lemma not_esc : forall ks : list key, ks <> [] -> last ks KEsc <> KEsc -> forall a, ks <> a ++ [KEsc].
Proof. intros ks _ H a ->. rewrite last_last in H. congruence. Qed.
Lemma object_last : forall mk, object_keys mk -> last mk KEsc <> KEsc /\ mk <> [].
Proof.
  intros mk [[k [-> Hk]]|[c [x [-> _]]]]; cbn [last]; split; try discriminate.
  cbn [In] in Hk. one_of; discriminate.
Qed.

Lemma v_memo : forall v ins ks lc m, noted v ins ks lc -> (if (lc =? 0)%N then 1%N else lc) = m -> (lc <= u32_max)%N ->
  (ins = None -> ks <> [] /\ last ks KEsc <> KEsc) -> memo v (entry_keys ins ks) m.
Proof.
  intros v ins ks lc m Hn Hm Hu Hl. exists ins, ks, lc. split; [exact Hn|]. split; [reflexivity|]. split; [|auto].
  intros -> a. cbn [entry_keys]. destruct (Hl eq_refl). apply not_esc; assumption.
Qed.

Lemma typing_esc_vk : forall P v s (Q : vi -> Prop),
  (forall f E, vk (vi_core_fuel (S (S f)) E KEsc) v (fun _ => Q)) -> typing P [KEsc] v s (fun v' _ => Q v').
Proof.
  intros P v s Q H. apply typing_cons; [exact I|]. intros E _.
  change (okv (vi_core_fuel (vi_fuel v) E KEsc) v s (fun _ v' s' => typing P [] v' (set_hint None s') (fun v' _ => Q v'))).
  replace (vi_fuel v) with (S (S (3 * (length (v_last v) + length (v_cur v)) + 8))) by (unfold vi_fuel; lia).
  specialize (H (3 * (length (v_last v) + length (v_cur v)) + 8) E s). unfold okv.
  destruct (vi_core_fuel _ E KEsc (v, s)) as [a [v' s']| | |]; auto. apply typing_nil. exact H.
Qed.

(** The operator, its counts and its motion. *)
Lemma typing_operator : forall P o dk1 n1 dk2 n2 mk v s, count dk1 n1 -> count dk2 n2 -> object_keys mk ->
  v_stack v = [] -> v_count v = 0%N ->
  typing P (dk1 ++ op_key o :: dk2 ++ mk) v s (fun v' _ =>
    v_stack v' = op_stack o /\ v_count v' = 0%N /\ (o = Chg -> v_reset v' = false) /\
    exists lc, noted v' (op_ins o) (match o with Del => kch "d" :: mk | Chg => mk end) lc /\ (lc <= u32_max)%N /\
      (if (lc =? 0)%N then 1%N else lc) = remembered mk (N.min (n1 * n2) 4294967295)).
Proof.
  intros P o dk1 n1 dk2 n2 mk v s C1 C2 Hm Hst Hc. apply typing_app.
  apply (typing_count P dk1 n1); [exact C1| |exact Hc|].
  { left. unfold vmode_of. rewrite Hst. reflexivity. }
  intros s1 _. change (op_key o :: dk2 ++ mk) with ([op_key o] ++ dk2 ++ mk). apply typing_app.
  eapply typing_mono; [apply (typing_steps P [op_key o])|].
  - constructor; [|constructor]. destruct o; split; discriminate.
  - cbn [steps]. apply step_op. exact Hst.
  - intros v2 s2 [[d Hd] [D2 [D3 [D4 D5]]]]. cbn beta. apply typing_app.
    apply (typing_count P dk2 n2); [exact C2| |exact D2|].
    { right. exists d. unfold vmode_of. rewrite Hd. reflexivity. }
    intros s3 _. eapply typing_mono; [apply (typing_steps P mk); [apply object_passes; exact Hm|]|].
    + apply (steps_object mk _ d (op_stack o) Hm); [exact Hd|apply op_base].
    + intros v4 s4 [F1 [F2 [F3 F4]]]. split; [exact F1|]. split; [exact F2|].
      split; [intros ->; apply F3; reflexivity|].
      eexists. split; [|split].
      * replace (op_ins o) with (v_curins (vset_count (stored dk2 n2) v2)) by exact D4.
        replace (match o with Del => kch "d" :: mk | Chg => mk end) with (v_cur (vset_count (stored dk2 n2) v2) ++ mk);
          [exact F4|]. cbn [v_cur vset_count]. rewrite D5. destruct o; reflexivity.
      * set (v3 := vset_count (stored dk2 n2) v2).
        assert (L : (v_count (joined v3) <= u32_max)%N).
        { unfold joined. cbn [v_count vset_count]. subst v3. cbn [v_count vset_count v_sec]. rewrite D3.
          cbn [v_count vset_count]. pose proof (stored_max _ _ C1). pose proof (stored_max _ _ C2).
          destruct (_ =? 0)%N; [assumption|]. destruct (_ =? 0)%N; [assumption|]. unfold sat. lia. }
        destruct mk as [|? [|? [|]]]; try exact L. unfold u32_max. lia.
      * set (v3 := vset_count (stored dk2 n2) v2).
        pose proof (joined_count dk1 n1 dk2 n2 v3 C1 C2 D3 eq_refl) as M. unfold move_count in M.
        destruct Hm as [[k [-> Hk]]|[c [x [-> _]]]]; cbn [remembered]; [exact M|reflexivity].
Qed.

(** What every change but [r] records. *)
Lemma typing_memo : forall P U t c n ks K t' c' m v s, given ks K n -> change U t c n K t' c' m ->
  (forall x, K <> [kch "r"; x]) -> v_stack v = [] -> v_count v = 0%N ->
  typing P ks v s (fun v' _ => memo v' K m).
Proof.
  intros P U t c n ks K t' c' m v s Hg Hc Hr Hst Hv.
  assert (Hn : counting v) by (left; unfold vmode_of; rewrite Hst; reflexivity).
  destruct Hc as [k t' Hk Ht| |x X1 X2 Hx|mk i j t' Ho Ht|mk i j tk a r Ho Htk Ht|k z times tk a r Ha HC Htk Ht].
  - destruct (given_front _ _ _ Hg) as [dk [Hd ->]].
    { exists k, []. split; [reflexivity|]. destruct Hk as [<-|[<-|[]]]; split; discriminate. }
    apply typing_app, (typing_count P dk n); [exact Hd|exact Hn|exact Hv|]. intros s1 _.
    eapply typing_mono; [apply (typing_steps P [k])|].
    + constructor; [|constructor]. destruct Hk as [<-|[<-|[]]]; [split; discriminate|exact I].
    + cbn [steps]. apply step_cut; [cbn [In] in *; tauto|exact Hst].
    + intros v2 s2 H2. apply (v_memo v2 None [k] (stored dk n) n).
      * destruct Hk as [<-|[<-|[]]]; exact H2.
      * apply stored_n. exact Hd.
      * apply stored_max. exact Hd.
      * intros _. split; [discriminate|]. destruct Hk as [<-|[<-|[]]]; discriminate.
  - destruct (given_front _ _ _ Hg) as [dk [Hd ->]].
    { exists (kch "D"), []. repeat split; discriminate. }
    apply typing_app, (typing_count P dk n); [exact Hd|exact Hn|exact Hv|]. intros s1 _.
    eapply typing_mono; [apply (typing_steps P [kch "D"])|].
    + constructor; [|constructor]. split; discriminate.
    + cbn [steps]. apply step_cut; [cbn [In]; tauto|exact Hst].
    + intros v2 s2 H2. apply (v_memo v2 None [kch "D"] 0%N 1%N); [exact H2|reflexivity|unfold u32_max; lia|].
      intros _. split; discriminate.
  - destruct (Hr (KChar x) eq_refl).
  - pose proof (object_object_keys _ _ _ _ _ _ _ Ho) as Hm.
    destruct (given_op Del ks mk n Hg) as [dk1 [n1 [dk2 [n2 [C1 [C2 [-> ->]]]]]]].
    eapply typing_mono; [apply (typing_operator P Del dk1 n1 dk2 n2 mk v s C1 C2 Hm Hst Hv)|].
    intros v2 s2 [_ [_ [_ [lc [N1 [N2 N3]]]]]]. apply (v_memo v2 None (kch "d" :: mk) lc); [exact N1|exact N3|exact N2|].
    intros _. split; [discriminate|]. destruct (object_last mk Hm) as [L1 L2]. destruct mk; [congruence|exact L1].
  - pose proof (object_object_keys _ _ _ _ _ _ _ Ho) as Hm.
    destruct (given_op Chg ks (mk ++ tk ++ [KEsc]) n Hg) as [dk1 [n1 [dk2 [n2 [C1 [C2 [-> ->]]]]]]].
    replace (dk1 ++ op_key Chg :: dk2 ++ mk ++ tk ++ [KEsc]) with ((dk1 ++ op_key Chg :: dk2 ++ mk) ++ tk ++ [KEsc])
      by (rewrite <- !app_assoc; cbn [app]; rewrite <- !app_assoc; reflexivity).
    apply typing_app.
    eapply typing_mono; [apply (typing_operator P Chg dk1 n1 dk2 n2 mk v s C1 C2 Hm Hst Hv)|].
    intros v2 s2 [S1 [S2 [S3 [lc [N1 [N2 N3]]]]]]. cbn beta. apply typing_app.
    eapply typing_mono; [apply (typing_steps P tk v2 s2 (enters (kch "c") (mk ++ tk) 0 lc)); [apply ViRepeat.typed_passes; exact Htk|]|].
    + apply steps_enters; [exact Htk|]. split; [exact S1|]. split; [exact (S3 eq_refl)|]. split; [exact S2|exact N1].
    + intros v3 s3 [E1 [E2 [E3 E4]]].
      eapply typing_mono; [apply (typing_esc_vk P v3 s3 (fun v' => noted v' (Some (kch "c")) (mk ++ tk) lc))|].
      * intros f E. apply core_S. unfold vmode_of. rewrite E1. unfold vi_insert. vm. rewrite E3.
        apply vk_when; [discriminate|]. intros _. vm. exact E4.
      * intros v4 s4 H4. replace (kch "c" :: mk ++ tk ++ [KEsc]) with (entry_keys (Some (kch "c")) (mk ++ tk))
          by (cbn [entry_keys]; rewrite <- app_assoc; reflexivity).
        apply (v_memo v4 _ _ lc); [exact H4|exact N3|exact N2|discriminate].
  - assert (Hk : exists x, k = KChar x /\ In x (str "iaAIs")).
    { destruct Ha; try congruence; (eexists; split; [reflexivity|]; cbn; auto 10). }
    destruct Hk as [x [-> Hx]].
    destruct (given_front _ _ _ Hg) as [dk [Hd ->]].
    { exists (KChar x), (tk ++ [KEsc]). split; [reflexivity|]. cbn [str In] in Hx. one_of; split; discriminate. }
    apply typing_app, (typing_count P dk n); [exact Hd|exact Hn|exact Hv|]. intros s1 _.
    change (KChar x :: tk ++ [KEsc]) with ((KChar x :: tk) ++ [KEsc]). apply typing_app.
    set (n0 := stored dk n).
    eapply typing_mono; [apply (typing_steps P (KChar x :: tk) _ s1
      (enters (KChar x) tk (if is_char x "s" then 0%N else n0) (if is_char x "s" then n0 else 0%N)))|].
    + constructor; [|apply ViRepeat.typed_passes; exact Htk]. cbn [str In] in Hx. one_of; split; discriminate.
    + cbn [steps]. intros E f. eapply vk_mono; [apply step_enter; [exact Hx|exact Hst]|].
      intros ? v2 H2. apply (steps_enters tk (KChar x) []); [exact Htk|exact H2].
    + intros v2 s2 H2.
      eapply typing_mono; [apply (typing_esc_vk P v2 s2); intros f E; apply (esc_enters f E _ _ _ _ _ Htk H2)|].
      intros v3 s3 H3. change (KChar x :: tk ++ [KEsc]) with (entry_keys (Some (KChar x)) tk).
      apply (v_memo v3 _ _ _ _ H3); [| |discriminate].
      * destruct (is_char x "s"); cbn [N.eqb]; [apply stored_n; exact Hd|].
        destruct (n0 =? 0)%N eqn:Z; [|rewrite Z]; [|subst n0; pose proof (stored_n _ _ Hd) as M; rewrite Z in M; exact M].
        cbn [N.eqb]. subst n0. pose proof (stored_n _ _ Hd) as M. rewrite Z in M. exact M.
      * pose proof (stored_max _ _ Hd) as M. fold n0 in M.
        destruct (is_char x "s"); cbn [N.eqb]; [exact M|]. destruct (n0 =? 0)%N; [unfold u32_max; lia|exact M].
Qed.

(** * What a change does *)

Definition changed (b : buffer) (t' : text) (c' : nat) (v : vi) (s : ed) : Prop :=
  exists b', calm v s b' c' /\ data b' = t' /\
    (t' <> data b -> exists u, buf_undo b' = Val (true, mkBuf (data b) (actions b) u)).

Lemma gone_changed : forall b i j v s, gone b i j v s ->
  changed b (firstn i (data b) ++ skipn j (data b)) (Nat.min i (length (firstn i (data b) ++ skipn j (data b)) - 1)) v s.
Proof.
  intros b i j v s [a [m [r [H1 [H2 [H3 H4]]]]]].
  assert (F : firstn i (data b) = a) by (rewrite H1; apply firstn_app_eq; lia).
  assert (K : skipn j (data b) = r).
  { rewrite H1, app_assoc. apply skipn_app_eq. rewrite app_length. lia. }
  rewrite F, K. exists (cut b a m r). split; [exact H4|]. split; [reflexivity|]. intros _. apply undo_cut. exact H1.
Qed.
Lemma recorded_changed : forall b b' g c v s, calm v s (end_undo_group b') c ->
  recording (actions b) (data b) g b' -> changed b (data b') c v s.
Proof.
  intros b b' g c v s HC [gr [R1 [R2 [R3 _]]]]. exists (end_undo_group b'). split; [exact HC|]. split; [reflexivity|].
  intro Hn. apply recording_undo. exists gr. split; [exact R1|]. split; [exact R2|]. split; [exact R3|].
  intros _ ->. inversion R3. congruence.
Qed.
Lemma left_changed : forall b g z v s, left_insert (actions b) (data b) g z v s ->
  changed b (fst z ++ snd z) (length (fst z) - 1) v s.
Proof.
  intros b g z v s [b' [H1 [H2 H3]]]. rewrite <- H2. eapply recorded_changed; eassumption.
Qed.

Lemma typing_object : forall o U dk1 n1 dk2 n2 mk i j v s b c, calm v s b c -> count dk1 n1 -> count dk2 n2 ->
  object U (data b) c (N.min (n1 * n2) 4294967295) mk i j ->
  typing (fun E => e_uni E = U) (dk1 ++ op_key o :: dk2 ++ mk) v s (went o b i j).
Proof.
  intros o U dk1 n1 dk2 n2 mk i j v s b c HC C1 C2 [H H0 Hx|H HU].
  - apply (typing_delete_span o _ dk1 n1 dk2 n2 mk i j v s b c HC C1 C2); [intro; contradiction|exact Hx|exact H].
  - apply (typing_delete_wspan o U dk1 n1 dk2 n2 mk i j v s b c HC C1 C2 HU H).
Qed.

Lemma typing_act : forall U n ks K t' c' m v s b c, calm v s b c -> given ks K n ->
  change U (data b) c n K t' c' m ->
  typing (fun E => e_uni E = U) ks v s (fun v' s' => changed b t' c' v' s' /\ memo v' K m).
Proof.
  intros U n ks K t' c' m v s b c HC Hg Hc.
  assert (Hst : v_stack v = []) by apply HC. assert (Hv : v_count v = 0%N) by apply HC.
  assert (Hm : (forall x, K <> [kch "r"; x]) -> typing (fun E => e_uni E = U) ks v s (fun v' _ => memo v' K m)).
  { intro Hr. apply (typing_memo _ U (data b) c n ks K t' c' m v s Hg Hc Hr Hst Hv). }
  destruct Hc as [k t' Hk Ht| |x X1 X2 Hx|mk i j t' Ho Ht|mk i j tk a r Ho Htk Ht|k z times tk a r Ha HK Htk Ht].
  - assert (Hm' := Hm (fun x => ltac:(discriminate))). clear Hm.
    destruct (given_front _ _ _ Hg) as [dk [Hd ->]].
    { exists k, []. split; [reflexivity|]. destruct Hk as [<-|[<-|[]]]; split; discriminate. }
    apply typing_and; [|exact Hm']. eapply typing_mono; [apply (typing_x _ dk n k v s b c HC Hd Hk)|].
    intros v' s' G. apply gone_changed in G. subst t'.
    replace (skipn (c + N.to_nat n) (data b)) with (skipn (Nat.min (c + N.to_nat n) (length (data b))) (data b)); [exact G|].
    destruct (Nat.min_spec (c + N.to_nat n) (length (data b))) as [[_ ->]|[L ->]]; [reflexivity|].
    rewrite !skipn_all2 by lia. reflexivity.
  - assert (Hm' := Hm (fun x => ltac:(discriminate))). clear Hm.
    destruct (given_front _ _ _ Hg) as [dk [Hd ->]].
    { exists (kch "D"), []. repeat split; discriminate. }
    apply typing_and; [|exact Hm']. eapply typing_mono; [apply (typing_D _ dk n v s b c HC Hd)|].
    intros v' s' G. apply gone_changed in G. rewrite skipn_all, app_nil_r in G.
    pose proof (in_line (data b) c (proj2 (proj2 (proj2 HC)))) as Hle. rewrite firstn_length in G.
    replace (Nat.min c (Nat.min c (length (data b)) - 1)) with (c - 1) in G by lia. exact G.
  - clear Hm. destruct (given_front _ _ _ Hg) as [dk [Hd ->]].
    { exists (kch "r"), [KChar x]. repeat split; discriminate. }
    eapply typing_mono; [apply (typing_r _ dk n x v s b c HC Hd X1 X2)|].
    intros v' s' [[Hn _]|[_ [HN [b' [[D Hr] HC']]]]]; [lia|]. split.
    + rewrite <- D. eapply recorded_changed; eassumption.
    + apply (v_memo v' None [kch "r"; KChar x] (stored dk n)); [exact HN|apply stored_n; exact Hd|apply stored_max; exact Hd|].
      intros _. split; discriminate.
  - assert (Hm' : typing (fun E => e_uni E = U) ks v s (fun v' _ => memo v' (kch "d" :: mk) (remembered mk n))).
    { apply Hm. discriminate. }
    clear Hm. destruct (given_op Del ks mk n Hg) as [dk1 [n1 [dk2 [n2 [C1 [C2 [-> ->]]]]]]].
    apply typing_and; [|exact Hm'].
    eapply typing_mono; [apply (typing_object Del U dk1 n1 dk2 n2 mk i j v s b c HC C1 C2 Ho)|].
    intros v' s' G. subst t'. apply gone_changed. exact G.
  - assert (Hm' : typing (fun E => e_uni E = U) ks v s (fun v' _ => memo v' (kch "c" :: mk ++ tk ++ [KEsc]) (remembered mk n))).
    { apply Hm. discriminate. }
    clear Hm. destruct (given_op Chg ks (mk ++ tk ++ [KEsc]) n Hg) as [dk1 [n1 [dk2 [n2 [C1 [C2 [-> ->]]]]]]].
    apply typing_and; [|exact Hm']. clear Hm' Hg.
    replace (dk1 ++ op_key Chg :: dk2 ++ mk ++ tk ++ [KEsc]) with ((dk1 ++ op_key Chg :: dk2 ++ mk) ++ tk ++ [KEsc])
      by (rewrite <- !app_assoc; cbn [app]; rewrite <- !app_assoc; reflexivity).
    eapply typing_mono; [apply (typing_change _ (dk1 ++ op_key Chg :: dk2 ++ mk) i j tk v s b c HC Htk);
      apply (typing_object Chg U dk1 n1 dk2 n2 mk i j v s b c HC C1 C2 Ho)|].
    intros v' s' [_ [_ G]]. rewrite Ht in G. apply left_changed in G. exact G.
  - assert (Hk : k <> kch "d" /\ k <> kch "c" /\ k <> kch "r") by (destruct Ha; repeat split; discriminate).
    destruct Hk as [K1 [K2 K3]].
    assert (Hm' : typing (fun E => e_uni E = U) ks v s (fun v' _ => memo v' (k :: tk ++ [KEsc]) n)).
    { apply Hm. intros x E. congruence. }
    clear Hm. destruct (given_front _ _ _ Hg) as [dk [Hd ->]].
    { exists k, (tk ++ [KEsc]). auto. }
    apply typing_and; [|exact Hm'].
    eapply typing_mono; [apply (typing_insertion _ dk n k z times tk v s b c HC Hd Ha Htk)|].
    intros v' s' [g [G _]]. rewrite Ht in G. apply left_changed in G. exact G.
Qed.

(** * [.] *)

Lemma change_passes : forall U t c n K t' c' m, change U t c n K t' c' m -> Forall passes K.
Proof.
  intros U t c n K t' c' m [k t0 Hk Ht| |x X1 X2 Hx|mk i j t0 Ho Ht|mk i j tk a r Ho Htk Ht|k z times tk a r Ha HK Htk Ht].
  - constructor; [|constructor]. destruct Hk as [<-|[<-|[]]]; [split; discriminate|exact I].
  - constructor; [|constructor]. split; discriminate.
  - constructor; [split; discriminate|]. constructor; [split; assumption|constructor].
  - constructor; [split; discriminate|]. apply object_passes. apply (object_object_keys _ _ _ _ _ _ _ Ho).
  - constructor; [split; discriminate|]. apply Forall_app. split.
    + apply object_passes. apply (object_object_keys _ _ _ _ _ _ _ Ho).
    + apply Forall_app. split; [apply ViRepeat.typed_passes; exact Htk|]. constructor; [exact I|constructor].
  - constructor; [destruct Ha; split; discriminate|].
    apply Forall_app. split; [apply ViRepeat.typed_passes; exact Htk|]. constructor; [exact I|constructor].
Qed.

(** Up to the final Esc the command stays an insertion. *)
Lemma change_steps : forall U t c n k ks t' c' m v, change U t c n (k :: ks ++ [KEsc]) t' c' m -> v_stack v = [] ->
  steps (k :: ks) v (fun v' => v_lastins v' = Some k).
Proof.
  intros U t c n k ks t' c' m v Hc Hst. remember (k :: ks ++ [KEsc]) as K eqn:EK.
  destruct Hc as [k0 t0 Hk Ht| |x X1 X2 Hx|mk i j t0 Ho Ht|mk i j tk a r Ho Htk Ht|k0 z times tk a r Ha HK Htk Ht];
    injection EK as EK1 EK2; subst.
  - destruct ks; discriminate.
  - destruct ks; discriminate.
  - destruct ks as [|? [|]]; discriminate.
  - pose proof (object_object_keys _ _ _ _ _ _ _ Ho) as Hm. destruct (object_last _ Hm) as [L _].
    rewrite last_last in L. congruence.
  - rewrite app_assoc in EK2. apply app_inj_tail in EK2. destruct EK2 as [<- _].
    pose proof (object_object_keys _ _ _ _ _ _ _ Ho) as Hm. cbn [steps].
    intros E f. eapply vk_mono; [apply (step_op Chg v Hst)|]. intros ? v1 [[d Hd] [D2 [D3 [D4 D5]]]].
    apply steps_app. eapply steps_mono; [apply (steps_object mk v1 d [MInsert] Hm Hd); right; reflexivity|].
    intros v2 [F1 [F2 [F3 F4]]]. rewrite D4, D5 in F4.
    eapply steps_mono; [apply (steps_enters tk (kch "c") mk 0 (v_lcount v2) v2 Htk)|].
    + split; [exact F1|]. split; [exact (F3 eq_refl)|]. split; [exact F2|].
      destruct F4 as [G1 [G2 G3]]. split; [exact G1|]. split; [exact G2|reflexivity].
    + intros v3 [_ [_ [_ [H3 _]]]]. exact H3.
  - apply app_inj_tail in EK2. destruct EK2 as [<- _].
    assert (Hk : exists x, k = KChar x /\ In x (str "iaAIs")).
    { destruct Ha; try congruence; (eexists; split; [reflexivity|]; cbn; auto 10). }
    destruct Hk as [x [-> Hx]]. cbn [steps].
    intros E f. eapply vk_mono; [apply (step_enter x v Hx Hst)|]. intros ? v1 H1.
    eapply steps_mono; [apply (steps_enters tk _ _ _ _ v1 Htk H1)|]. intros v3 [_ [_ [_ [H3 _]]]]. exact H3.
Qed.

Lemma okv_mfor_app : forall (f : key -> MV unit) l1 l2 v s Q, okv (mfor (l1 ++ l2) f) v s Q ->
  okv (mfor l1 f) v s (fun _ v' s' => okv (mfor l2 f) v' s' Q).
Proof.
  intros f. induction l1 as [|k l1 IH]; intros l2 v s Q H; cbn [app mfor] in *.
  - apply okv_ret. exact H.
  - apply okv_bind. unfold okv, bind in H. unfold okv at 1.
    destruct (f k (v, s)) as [a [v' s']| | |]; try exact I. apply IH. exact H.
Qed.
Lemma okv_vk : forall {A} (m : MV A) v s (Q : A -> vi -> ed -> Prop) (Q' : A -> vi -> Prop),
  okv m v s Q -> vk m v Q' -> okv m v s (fun a v' s' => Q a v' s' /\ Q' a v').
Proof.
  intros A m v s Q Q' H H'. specialize (H' s). unfold okv in *. destruct (m (v, s)) as [a [v' s']| | |]; auto.
Qed.

Lemma memo_vset : forall v ins ks m, memo v (entry_keys ins ks) m ->
  (ins = None -> forall a, ks <> a ++ [KEsc]) -> v_lastins v = ins /\ memo (vset_last ks v) (entry_keys ins ks) m.
Proof.
  intros v ins ks m [ins' [ks' [lc [[N1 [N2 N3]] [HK [HE [HM HU]]]]]]] Hn.
  assert (ins' = ins /\ ks' = ks) as [-> ->].
  { destruct ins as [k|], ins' as [k'|]; cbn [entry_keys] in HK.
    - injection HK as -> HK. apply app_inj_tail in HK. destruct HK as [-> _]. auto.
    - destruct (HE eq_refl (k :: ks)). reflexivity.
    - destruct (Hn eq_refl (k' :: ks')). exact HK.
    - auto. }
  split; [exact N1|]. exists ins, ks, lc. split; [|auto]. unfold noted. vsimp. auto.
Qed.

Lemma okv_dot : forall E b c K n0 t' c' m k v s, calm v s b c -> memo v K n0 -> well v s -> e_wok E = true ->
  (k <= u32_max)%N ->
  change (e_uni E) (data b) c (if (k =? 0)%N then n0 else k) K t' c' m ->
  okv (vi_core E (kch ".")) (vset_count k v) s (fun _ v' s' => changed b t' c' v' s' /\ memo v' K m).
Proof.
  intros E b c K n0 t' c' m k v s HC HM HW He Hk Hc.
  set (n := if (k =? 0)%N then n0 else k) in *.
  destruct HM as [ins [ks [lc [[N1 [N2 N3]] [HK [HE [HL HU]]]]]]].
  assert (Hn0 : n <> 0%N).
  { subst n. destruct (k =? 0)%N eqn:Z; [|apply N.eqb_neq; exact Z]. subst n0.
    destruct (lc =? 0)%N eqn:Z2; [discriminate|apply N.eqb_neq; exact Z2]. }
  assert (Hnu : (n <= u32_max)%N).
  { subst n. destruct (k =? 0)%N eqn:Z; [|exact Hk]. subst n0. destruct (lc =? 0)%N; [unfold u32_max; lia|exact HU]. }
  assert (Hst : v_stack v = []) by apply HC.
  apply okv_core_rec. intro f. unfold vmode_of. cbn [v_stack vset_count]. rewrite Hst. unfold vi_normal, kch. decide_okv.
  apply okv_modk. unfold vi_repeat. apply okv_modk, okv_getk. cbv zeta. apply okv_modk. vsimp.
  rewrite N1, N2, N3, HL. fold n.
  match goal with |- okv _ ?x _ _ => set (v0 := x) end.
  set (v00 := vset_last [] (vset_lcount n v)).
  assert (Hv0 : v0 = vset_count n v00) by reflexivity.
  assert (HC0 : calm v00 s b c) by exact HC.
  assert (HW0 : well v00 s).
  { destruct HW as [[i HJ] [HI Hh]]. split; [|split; [exact HI|exact Hh]]. exists 0.
    destruct HJ as [H1 H2 H3 H4 H5 H6 H7 H8]. subst v00. constructor; vsimp; rewrite ?Hst; auto; try solve [constructor]; intro; jstk. }
  assert (HW1 : well v0 s).
  { destruct HW0 as [[i HJ] [HI Hh]]. split; [|split; [exact HI|exact Hh]]. exists i. rewrite Hv0.
    destruct HJ as [H1 H2 H3 H4 H5 H6 H7 H8]. constructor; assumption. }
  assert (Hp : Forall passes K) by (eapply change_passes; exact Hc).
  assert (R : okv (mfor K (vi_core_fuel (S f) E)) v0 s (fun _ v' s' => changed b t' c' v' s' /\ memo v' K m)).
  { apply (replay (S f) E K v0 s (fun v' s' => changed b t' c' v' s' /\ memo v' K m) He Hp HW1). rewrite Hv0.
    apply (strip_count E K v00 s _ n Hn0 Hnu He HW0).
    - unfold vmode_of. subst v00. cbn [v_stack vset_last vset_lcount]. rewrite Hst. reflexivity.
    - apply HC0.
    - intros dk Hd _. apply (typing_act (e_uni E) n (dk ++ K) K t' c' m v00 s b c HC0 (gv_front dk n K Hd) Hc).
      + rewrite map_map. cbn [snd]. apply map_id.
      + apply Forall_forall. intros x Hx. apply in_map_iff in Hx. destruct Hx as [y [<- _]]. reflexivity. }
  assert (Fin : forall v' s', changed b t' c' v' s' -> memo v' K m ->
    v_lastins v' = ins /\ changed b t' c' (vset_last ks v') s' /\ memo (vset_last ks v') K m).
  { intros v' s' H1 H2. rewrite HK in H2. apply memo_vset in H2.
    - destruct H2 as [H2 H3]. rewrite HK. split; [exact H2|]. split; [|exact H3]. exact H1.
    - intros Hi a Ha. apply (HE Hi a). rewrite HK, Hi. exact Ha. }
  destruct ins as [ik|]; cbn [entry_keys] in HK; subst K.
  - pose proof (change_steps _ _ _ _ _ _ _ _ _ v0 Hc Hst) as HS. apply (steps_mfor f E) in HS.
    change (ik :: ks ++ [KEsc]) with ((ik :: ks) ++ [KEsc]) in R. apply okv_mfor_app in R.
    pose proof (okv_vk _ _ _ _ _ R HS) as R2. cbn [mfor] in R2. clear R.
    apply okv_bind. unfold okv, bind in R2. unfold okv at 1.
    destruct (vi_core_fuel (S f) E ik (v0, s)) as [a1 [v1 s1]| | |]; auto.
    apply okv_bind. unfold okv at 1.
    destruct (mfor ks (vi_core_fuel (S f) E) (v1, s1)) as [a2 [v2 s2]| | |]; auto.
    destruct R2 as [R2 R3]. cbn beta in R3. apply okv_getk. rewrite R3. apply okv_bind. unfold okv at 1.
    destruct (vi_core_fuel (S f) E KEsc (v2, s2)) as [a3 [v3 s3]| | |]; auto.
    destruct R2 as [R4 R5]. apply okv_modk1. destruct (Fin v3 s3 R4 R5) as [_ F]. exact F.
  - apply okv_bind, okv_ret. eapply okv_seq; [exact R|]. intros _ v2 s2 [R4 R5]. apply okv_getk.
    destruct (Fin v2 s2 R4 R5) as [-> F]. apply okv_bind, okv_ret, okv_modk1. exact F.
Qed.

(** * Motions and [u] between changes *)

Definition same_notes (v v' : vi) : Prop :=
  v_lastins v' = v_lastins v /\ v_last v' = v_last v /\ v_lcount v' = v_lcount v.
Lemma same_memo : forall v v' K m, same_notes v v' -> memo v K m -> memo v' K m.
Proof.
  intros v v' K m [S1 [S2 S3]] [ins [ks [lc [[N1 [N2 N3]] H]]]]. exists ins, ks, lc. split; [|exact H].
  split; [congruence|]. split; congruence.
Qed.

Lemma steps_notes : forall mk v, v_stack v = [] ->
  (exists k, mk = [k] /\ In k [kch "h"; KBackspace; kch "l"; kch " "; kch "^"; kch "$"; kch "w"; kch "W"; kch "b";
     kch "B"; kch "e"; kch "E"; kch "u"]) \/
  mk = [kch "0"] /\ v_count v = 0%N \/
  (exists c x, mk = [KChar c; KChar x] /\ In c (str "ftFT")) \/
  (exists c, mk = [kch "g"; KChar c] /\ In c (str "eE")) ->
  steps mk v (same_notes v).
Proof.
  intros mk v Hst Hm. destruct v as [st cur lst ci li c sc lc r lm]. cbn [v_stack v_count] in Hst, Hm. subst st.
  unfold same_notes. destruct Hm as [[k [-> Hk]]|[[-> Hc]|[[x [y [-> Hx]]]|[x [-> Hx]]]]]; cbn [steps].
  - cbn [In] in Hk. one_of; stepn; unfold after_movement, vmode_of; vsimp; auto.
  - subst c. stepn; decide_chars; vm; unfold after_movement, vmode_of; vsimp; auto.
  - cbn [str In] in Hx. one_of; stepn; vsimp; intros E' f'; apply core_S; cbn [vmode_of v_stack];
      (apply vk_find; [split; discriminate|]); unfold after_movement, vmode_of; vsimp; auto.
  - cbn [str In] in Hx. one_of; stepn; vsimp; intros E' f'; apply core_S; vsimp; unfold vi_g; vm;
      decide_chars; vm; apply vk_finally; vm; unfold after_movement, vmode_of; vsimp; auto.
Qed.

Lemma count_passes : forall dk n, count dk n -> Forall passes dk.
Proof.
  intros dk n [|d ds Hd _ Hds]; [constructor|]. apply Forall_map. constructor; [apply digit_passes; exact Hd|].
  eapply Forall_impl; [|exact Hds]. exact digit_passes.
Qed.

Lemma typing_same : forall P dk n mk v s, count dk n -> v_stack v = [] -> v_count v = 0%N -> Forall passes mk ->
  (forall k, v_count k = stored dk n -> v_stack k = [] -> steps mk k (same_notes k)) ->
  typing P (dk ++ mk) v s (fun v' _ => same_notes v v').
Proof.
  intros P dk n mk v s Hd Hst Hv Hp H. apply typing_app, (typing_count P dk n); [exact Hd| |exact Hv|].
  - left. unfold vmode_of. rewrite Hst. reflexivity.
  - intros s1 _. apply (typing_steps P mk (vset_count (stored dk n) v) s1 (same_notes v) Hp).
    apply (H (vset_count (stored dk n) v)); [reflexivity|exact Hst].
Qed.

Lemma search_key_char : forall m k, search_key m = Some k -> exists c, k = KChar c /\ In c (str "ftFT").
Proof. intros [] k H; try discriminate; injection H as <-; eexists; (split; [reflexivity|]); cbn; auto 10. Qed.

Lemma typing_goes_notes : forall P U t c ks p v s, goes U t c ks p -> v_stack v = [] -> v_count v = 0%N ->
  typing P ks v s (fun v' _ => same_notes v v').
Proof.
  intros P U t c ks p v s Hg Hst Hv.
  assert (One : forall dk n k, count dk n -> passes k ->
    In k [kch "h"; KBackspace; kch "l"; kch " "; kch "^"; kch "$"; kch "w"; kch "W"; kch "b"; kch "B"; kch "e"; kch "E"] ->
    typing P (dk ++ [k]) v s (fun v' _ => same_notes v v')).
  { intros dk n k Hd Hp Hk. apply (typing_same P dk n [k] v s Hd Hst Hv); [constructor; [exact Hp|constructor]|].
    intros v1 _ H1. apply steps_notes; [exact H1|]. left. exists k. split; [reflexivity|]. cbn [In] in *. tauto. }
  assert (Find : forall dk n m k x, count dk n -> search_key m = Some k -> x <> c_tab -> x <> c_nl ->
    typing P (dk ++ [k; KChar x]) v s (fun v' _ => same_notes v v')).
  { intros dk n m k x Hd Hk X1 X2. destruct (search_key_char _ _ Hk) as [y [-> Hy]].
    apply (typing_same P dk n [KChar y; KChar x] v s Hd Hst Hv).
    - constructor; [|constructor; [split; assumption|constructor]]. cbn [str In] in Hy. one_of; split; discriminate.
    - intros v1 _ H1. apply steps_notes; [exact H1|]. right. right. left. exists y, x. auto. }
  destruct Hg as [dk n k Hd Hk|dk n k Hd Hk| |dk n Hd|dk n Hd|dk n m big p Hd HU Hp|dk n m k x p Hd Hm X1 X2 Hp|dk n m k x Hd Hm X1 X2 Hp].
  - apply (One dk n k Hd); [destruct Hk as [<-|[<-|[]]]; [split; discriminate|exact I]|cbn [In] in *; tauto].
  - apply (One dk n k Hd); [destruct Hk as [<-|[<-|[]]]; split; discriminate|cbn [In] in *; tauto].
  - apply (typing_same P [] 1 [kch "0"] v s count_none Hst Hv); [constructor; [split; discriminate|constructor]|].
    intros v1 H0 H1. apply steps_notes; [exact H1|]. right. left. auto.
  - apply (One dk n _ Hd); [split; discriminate|cbn [In]; tauto].
  - apply (One dk n _ Hd); [split; discriminate|cbn [In]; tauto].
  - destruct m, big; cbn [word_keys];
      try (apply (One dk n _ Hd); [split; discriminate|cbn [In]; tauto]);
      (apply (typing_same P dk n _ v s Hd Hst Hv); [constructor; [split; discriminate|constructor; [split; discriminate|constructor]]|]);
      intros v1 _ H1; (apply steps_notes; [exact H1|]); right; right; right; eexists; (split; [reflexivity|]); cbn; auto.
  - apply (Find dk n m k x Hd Hm X1 X2).
  - apply (Find dk n m k x Hd Hm X1 X2).
Qed.

Lemma typing_goes : forall U ks p v s b c, calm v s b c -> goes U (data b) c ks p ->
  typing (fun E => e_uni E = U) ks v s (fun v' s' => calm v' s' b p).
Proof.
  intros U ks p v s b c HC Hg.
  pose proof (proj2 (proj2 (proj2 HC))) as Hin.
  assert (One : forall dk n k q, count dk n -> passes k -> onekey k n (length (data b)) c q ->
    clamp_cursor true (length (data b)) q = p -> typing (fun E => e_uni E = U) (dk ++ [k]) v s (fun v' s' => calm v' s' b p)).
  { intros dk n k q Hd Hp Ho <-. eapply typing_mono; [apply (typing_onekey _ dk n k q v s b c HC Hd Hp Ho)|].
    intros v2 s2 [H _]. exact H. }
  destruct Hg as [dk n k Hd Hk|dk n k Hd Hk| |dk n Hd|dk n Hd|dk n m big p Hd HU Hp|dk n m k x p Hd Hm X1 X2 Hp|dk n m k x Hd Hm X1 X2 Hp].
  - eapply (One dk n k _ Hd).
    + destruct Hk as [<-|[<-|[]]]; [split; discriminate|exact I].
    + left. split; [exact Hk|reflexivity].
    + apply clamp_calm. destruct Hin as [Hin|[Hin ->]]; [left; lia|right; auto].
  - eapply (One dk n k _ Hd).
    + destruct Hk as [<-|[<-|[]]]; split; discriminate.
    + right. left. split; [exact Hk|reflexivity].
    + rewrite clamp_stop by lia. unfold stop_at. lia.
  - apply (typing_zero _ v s b c HC).
  - eapply (One dk n _ _ Hd); [split; discriminate|right; right; left; split; [left; reflexivity|reflexivity]|apply clamp_0].
  - eapply (One dk n _ _ Hd); [split; discriminate|right; right; right; split; [left; reflexivity|reflexivity]|apply clamp_end].
  - eapply typing_mono; [apply (typing_word U dk n m big v s b c HC Hd HU)|].
    intros v2 s2 [q [Hq H]].
    assert (q = p) as ->; [|exact H].
    eapply hops_fun; [|exact Hq|exact Hp]. intros c0 p0 q0. destruct m; cbn [word_hop]; first [apply next_fun|apply prev_fun].
  - eapply typing_mono; [apply (typing_search _ dk n m k x v s b c HC Hd Hm X1 X2)|].
    intros v2 s2 [q [[[q' [Hq ->]]|[Hq _]] [H _]]]; [|destruct (hit_miss _ _ _ _ _ _ Hp Hq)].
    rewrite (search_fun _ _ _ _ _ _ _ Hp Hq). exact H.
  - eapply typing_mono; [apply (typing_search _ dk n m k x v s b c HC Hd Hm X1 X2)|].
    intros v2 s2 [q [[[q' [Hq _]]|[_ ->]] [H _]]]; [destruct (hit_miss _ _ _ _ _ _ Hq Hp)|exact H].
Qed.

(** * Sessions *)

Lemma typing_hint : forall P ks v s, Forall passes ks -> ks <> [] -> typing P ks v s (fun _ s' => ed_hint s' = None).
Proof.
  intros P. induction ks as [|k ks IH]; intros v s Hp Hn; [congruence|]. inversion Hp; subst.
  apply typing_cons; [assumption|]. intros E _. unfold okv. destruct (vi_core E k (v, s)) as [a [v' s']| | |]; auto.
  destruct ks as [|k' ks]; [apply typing_nil; reflexivity|]. apply IH; [assumption|discriminate].
Qed.

(** The surroundings can be taken to have a working terminal. *)
Lemma typing_wok : forall (P : env -> Prop) k v s (Q : vi -> ed -> Prop), passes k ->
  (forall E, P E -> e_wok E = true -> okv (vi_core E k) v s (fun _ v' s' => Q v' (set_hint None s'))) ->
  typing P [k] v s Q.
Proof.
  intros P k v s Q Hp H l Hl HP. destruct l as [|[E k'] [|]]; try discriminate. cbn [map snd] in Hl.
  injection Hl as ->. inversion HP; subst. cbn [run_keys fst] in *.
  eapply (okv_seq _ _ _ _ (fun d v' s' => d = false /\ Q v' s')).
  - destruct (e_wok E) eqn:He; [|apply handle_broken; exact He]. apply okv_handle; [exact Hp|]. apply H; assumption.
  - intros d v' s' [-> HQ]. apply okv_ret. auto.
Qed.

Definition remembers (v : vi) (s : ed) (r : memory) : Prop :=
  match r with None => True | Some (K, n) => memo v K n /\ ed_hint s = None end.

Lemma changed_hint : forall b t c v s, changed b t c v s -> changed b t c v (set_hint None s).
Proof. intros b t c v s H. exact H. Qed.

Lemma typing_acts : forall U r ks t1 c1 r1 v s b c, vi_session v s -> calm v s b c -> remembers v s r ->
  act U (data b) c r ks t1 c1 r1 ->
  typing (fun E => e_uni E = U) ks v s (fun v' s' => changed b t1 c1 v' s' /\ remembers v' s' r1).
Proof.
  intros U r ks t1 c1 r1 v s b c HS HC HR Ha.
  assert (Hst : v_stack v = []) by apply HC. assert (Hv : v_count v = 0%N) by apply HC.
  assert (Dot : forall dk k K n0 n t' c' m, typing (fun E => e_uni E = U) dk v s (fun v' s' => v' = vset_count k v /\ s' = s) ->
    memo v K n0 -> ed_hint s = None -> (k <= u32_max)%N -> n = (if (k =? 0)%N then n0 else k) ->
    change U (data b) c n K t' c' m ->
    typing (fun E => e_uni E = U) (dk ++ [kch "."]) v s (fun v' s' => changed b t' c' v' s' /\ remembers v' s' (Some (K, m)))).
  { intros dk k K n0 n t' c' m Hd HM Hh Hk -> Hc. apply typing_app. eapply typing_mono; [exact Hd|].
    intros v1 s1 [-> ->]. apply typing_wok; [split; discriminate|]. intros E <- He.
    destruct (session_inv v s HS) as [HJ HI].
    eapply okv_mono; [apply (okv_dot E b c K n0 t' c' m k v s HC HM (conj HJ (conj HI Hh)) He Hk Hc)|].
    intros ? v2 s2 [H1 H2]. split; [apply changed_hint; exact H1|]. split; [exact H2|reflexivity]. }
  destruct Ha as [r ks K n t' c' m Hg Hc|K n t' c' m Hc|dk K n0 n t' c' m Hd Hn Hc].
  - assert (Hp : Forall passes ks /\ ks <> []).
    { pose proof (change_passes _ _ _ _ _ _ _ _ Hc) as HK. destruct Hg as [dk n K Hd|dk1 n1 o dk2 n2 K Ho H1 H2].
      - split; [apply Forall_app; split; [eapply count_passes; exact Hd|exact HK]|].
        intro E. apply app_eq_nil in E. destruct E as [_ ->]. inversion Hc.
      - split; [|destruct dk1; discriminate]. inversion HK; subst.
        apply Forall_app. split; [eapply count_passes; exact H1|]. constructor; [assumption|].
        apply Forall_app. split; [eapply count_passes; exact H2|assumption]. }
    eapply typing_mono; [apply typing_and; [apply (typing_act U n ks K t' c' m v s b c HC Hg Hc)|apply typing_hint; apply Hp]|].
    intros v2 s2 [[H1 H2] H3]. split; [exact H1|]. split; assumption.
  - destruct HR as [HM Hh]. apply (Dot [] 0%N K n n t' c' m); auto; [|unfold u32_max; lia].
    apply typing_nil. split; [|reflexivity]. destruct v. cbn in Hv. subst. reflexivity.
  - destruct HR as [HM Hh]. apply (Dot dk (stored dk n) K n0 n t' c' m); auto.
    + apply (typing_count _ dk n); [exact Hd|left; unfold vmode_of; rewrite Hst; reflexivity|exact Hv|].
      intros s1 Hs1. split; [reflexivity|]. destruct Hs1 as [-> | ->]; [reflexivity|]. apply set_hint_same. exact Hh.
    + apply stored_max. exact Hd.
    + pose proof (count_pos _ _ Hd) as P0. apply N.eqb_neq in P0. destruct dk as [|k dk]; [congruence|].
      cbn [stored]. rewrite P0. reflexivity.
Qed.

Lemma run_piece : forall P ks rest l v s Q d x, typing P ks v s Q -> map snd l = ks ++ rest ->
  Forall (fun y => P (fst y)) l -> run_keys vi_core l (v, s) = ORet d x ->
  exists l1 l2 v1 s1, run_keys vi_core l1 (v, s) = ORet false (v1, s1) /\ Q v1 s1 /\ map snd l2 = rest /\
    Forall (fun y => P (fst y)) l2 /\ run_keys vi_core l2 (v1, s1) = ORet d x.
Proof.
  intros P ks rest l v s Q d x HT Hl HP H. apply map_eq_app in Hl. destruct Hl as [l1 [l2 [-> [H1 H2]]]].
  apply Forall_app in HP. destruct HP as [P1 P2]. rewrite run_keys_app in H. unfold bind in H.
  specialize (HT l1 H1 P1). unfold okv in HT.
  destruct (run_keys vi_core l1 (v, s)) as [d1 [v1 s1]| | |] eqn:E1; try discriminate. destruct HT as [-> HQ].
  exists l1, l2, v1, s1. auto.
Qed.

Lemma story_run : forall U t c r ks t' c', story U t c r ks t' c' -> forall l v s b d v' s',
  vi_session v s -> calm v s b c -> data b = t -> remembers v s r ->
  map snd l = ks -> Forall (fun x => e_uni (fst x) = U) l -> run_keys vi_core l (v, s) = ORet d (v', s') ->
  d = false /\ vi_session v' s' /\ exists b', data b' = t' /\ calm v' s' b' c'.
Proof.
  intros U t c r ks t' c' H.
  induction H as [t c r|t c r ks c1 rest t' c' Hg _ IH|t c r ks t1 c1 r1 rest t' c' Ha _ IH|t c r ks t1 c1 r1 rest t' c' Ha Hn _ IH];
    intros l v s b d v' s' HS HC <- HR Hl HU H.
  - apply map_eq_nil in Hl. subst l. cbn [run_keys] in H. injection H as <- <- <-. eauto.
  - assert (HT : typing (fun E => e_uni E = U) ks v s (fun v' s' => calm v' s' b c1 /\ remembers v' s' r)).
    { eapply typing_mono; [apply typing_and; [apply (typing_goes U ks c1 v s b c HC Hg)|
        apply typing_and; [apply (typing_goes_notes _ U (data b) c ks c1 v s Hg); apply HC|apply typing_hint]]|].
      - destruct Hg as [dk n k Hd Hk|dk n k Hd Hk| |dk n Hd|dk n Hd|dk n m big p Hd Hw Hp|dk n m k x p Hd Hm X1 X2 Hp|dk n m k x Hd Hm X1 X2 Hp];
          try (apply Forall_app; split; [eapply count_passes; exact Hd|]).
        + constructor; [|constructor]. destruct Hk as [<-|[<-|[]]]; [split; discriminate|exact I].
        + constructor; [|constructor]. destruct Hk as [<-|[<-|[]]]; split; discriminate.
        + constructor; [split; discriminate|constructor].
        + constructor; [split; discriminate|constructor].
        + constructor; [split; discriminate|constructor].
        + destruct m, big; cbn [word_keys]; repeat (constructor; [split; discriminate|]); constructor.
        + destruct (search_key_char _ _ Hm) as [y [-> Hy]]. constructor; [|constructor; [split; assumption|constructor]].
          cbn [str In] in Hy. one_of; split; discriminate.
        + destruct (search_key_char _ _ Hm) as [y [-> Hy]]. constructor; [|constructor; [split; assumption|constructor]].
          cbn [str In] in Hy. one_of; split; discriminate.
      - intros ->. inversion Hg; subst;
          try match goal with E : _ ++ _ = [] |- _ => apply app_eq_nil in E; destruct E as [_ E]; try discriminate end.
        match goal with E : word_keys ?m ?b = [] |- _ => destruct m, b; discriminate end.
      - intros v2 s2 [H1 [H2 H3]]. split; [exact H1|]. destruct r as [[K n]|]; [|exact I].
        split; [|exact H3]. eapply same_memo; [exact H2|]. apply HR. }
    destruct (run_piece _ ks rest l v s _ d (v', s') HT Hl HU H) as [l1 [l2 [v1 [s1 [R1 [[C1 C2] [M2 [U2 R2]]]]]]]].
    apply (IH l2 v1 s1 b d v' s' (session_more _ _ _ _ _ HS R1) C1 eq_refl C2 M2 U2 R2).
  - pose proof (typing_acts U r ks t1 c1 r1 v s b c HS HC HR Ha) as HT.
    destruct (run_piece _ ks rest l v s _ d (v', s') HT Hl HU H) as [l1 [l2 [v1 [s1 [R1 [[C1 C2] [M2 [U2 R2]]]]]]]].
    destruct C1 as [b1 [D1 [D2 D3]]].
    apply (IH l2 v1 s1 b1 d v' s' (session_more _ _ _ _ _ HS R1) D1 D2 C2 M2 U2 R2).
  - pose proof (typing_acts U r ks t1 c1 r1 v s b c HS HC HR Ha) as HT.
    assert (HT2 : typing (fun E => e_uni E = U) (ks ++ [kch "u"]) v s (fun v' s' => remembers v' s' r1 /\
      exists u, calm v' s' (mkBuf (data b) (actions b) u) (length (data b) - 1))).
    { apply typing_app. eapply typing_mono; [exact HT|]. intros v1 s1 [[b1 [D1 [D2 D3]]] HR1].
      destruct (D3 Hn) as [u Hu].
      eapply typing_mono; [apply typing_and; [apply (typing_u _ v1 s1 b1 c1 _ D1 Hu)|
        apply typing_and; [apply (typing_steps _ [kch "u"] v1 s1 (same_notes v1))|apply (typing_hint _ [kch "u"])]]|].
      - constructor; [split; discriminate|constructor].
      - apply steps_notes; [apply D1|]. left. eexists. split; [reflexivity|]. cbn [In]. tauto.
      - constructor; [split; discriminate|constructor].
      - discriminate.
      - intros v2 s2 [H1 [H2 H3]]. split; [|exists u; exact H1]. destruct r1 as [[K n]|]; [|exact I].
        split; [|exact H3]. eapply same_memo; [exact H2|]. apply HR1. }
    replace (ks ++ kch "u" :: rest) with ((ks ++ [kch "u"]) ++ rest) in Hl by (rewrite <- app_assoc; reflexivity).
    destruct (run_piece _ (ks ++ [kch "u"]) rest l v s _ d (v', s') HT2 Hl HU H) as [l1 [l2 [v1 [s1 [R1 [[C1 [u C2]] [M2 [U2 R2]]]]]]]].
    apply (IH l2 v1 s1 _ d v' s' (session_more _ _ _ _ _ HS R1) C2 eq_refl C1 M2 U2 R2).
Qed.

Lemma vi_story : forall U v s t c ks t' c' l d v' s', ready v s t c -> story U t c None ks t' c' ->
  map snd l = ks -> Forall (fun x => e_uni (fst x) = U) l -> run_keys vi_core l (v, s) = ORet d (v', s') ->
  d = false /\ ready v' s' t' c'.
Proof.
  intros U v s t c ks t' c' l d v' s' Hr HS Hl HU H. destruct (ready_calm _ _ _ _ Hr) as [b [Hb HC]].
  destruct (story_run U t c None ks t' c' HS l v s b d v' s' (proj1 Hr) HC Hb I Hl HU H) as [-> [_ [b' [Hb' HC']]]].
  split; [reflexivity|]. rewrite <- Hb'. exact (calm_ready _ _ _ _ _ _ _ (proj1 Hr) H HC').
Qed.

(** * Counterexamples *)

Lemma ready_both : forall E h l l1 l2 t c t1 c1 t2 c2,
  ready_b (vi_run E h l) t c && ready_b (vi_run E h (l ++ l1)) t1 c1 && ready_b (vi_run E h (l ++ l2)) t2 c2 = true ->
  exists v s v1 s1 v2 s2, ready v s t c /\
    run_keys vi_core (map (pair E) l1) (v, s) = ORet false (v1, s1) /\ ready v1 s1 t1 c1 /\
    run_keys vi_core (map (pair E) l2) (v, s) = ORet false (v2, s2) /\ ready v2 s2 t2 c2.
Proof.
  intros E h l l1 l2 t c t1 c1 t2 c2 H. apply andb_true_iff in H. destruct H as [H H3].
  apply andb_true_iff in H. destruct H as [H1 H2].
  destruct (ready_run _ _ _ _ _ H1) as [v [s [K1 K2]]]. destruct (ready_run _ _ _ _ _ H2) as [v1 [s1 [K3 K4]]].
  destruct (ready_run _ _ _ _ _ H3) as [v2 [s2 [K5 K6]]].
  exists v, s, v1, s1, v2, s2. split; [exact K2|].
  rewrite <- (vi_run_app E h l l1 v s K1), <- (vi_run_app E h l l2 v s K1). auto.
Qed.

Lemma vi_dot_zero : exists v s v1 s1, ready v s (str "abc def") 6 /\
  run_keys vi_core (map (pair test_env) (keys (str "d0."))) (v, s) = ORet false (v1, s1) /\
  vmode_of v1 <> MNormal /\ v_count v1 = 10%N /\
  exists v2 s2, run_keys vi_core (map (pair test_env) (keys (str "x"))) (v1, s1) = ORet false (v2, s2) /\
    line_is s2 (str "f") 0.
Proof.
  destruct (ready_run test_env [] (keys (str "abc def") ++ [KEsc]) (str "abc def") 6 ltac:(vm_compute; reflexivity))
    as [v [s [K1 K2]]].
  exists v, s. assert (K3 := K1). vm_compute in K3. injection K3 as <- <-. do 2 eexists. split; [exact K2|].
  split; [vm_compute; reflexivity|]. split; [discriminate|]. split; [reflexivity|].
  do 2 eexists. split; [vm_compute; reflexivity|]. eexists. vm_compute. auto.
Qed.

Lemma vi_dot_C : exists v s v1 s1, ready v s (str "abc def") 0 /\
  run_keys vi_core (map (pair test_env) (keys (str "xwCxy") ++ [KEsc; kch "0"; kch "."])) (v, s) = ORet false (v1, s1) /\
  vmode_of v1 = MInsert.
Proof.
  destruct (ready_run test_env [] (keys (str "abc def") ++ [KEsc; kch "0"]) (str "abc def") 0 ltac:(vm_compute; reflexivity))
    as [v [s [K1 K2]]].
  exists v, s. assert (K3 := K1). vm_compute in K3. injection K3 as <- <-. do 2 eexists. split; [exact K2|].
  split; vm_compute; reflexivity.
Qed.

Lemma vi_dot_find : exists v s v1 s1 v2 s2, ready v s (str "axbxcxdxexfx") 0 /\
  run_keys vi_core (map (pair test_env) (keys (str "d2fx."))) (v, s) = ORet false (v1, s1) /\
  ready v1 s1 (str "dxexfx") 0 /\
  run_keys vi_core (map (pair test_env) (keys (str "d2fxd2fx"))) (v, s) = ORet false (v2, s2) /\
  ready v2 s2 (str "exfx") 0.
Proof.
  apply (ready_both test_env [] (keys (str "axbxcxdxexfx") ++ [KEsc; kch "0"]) (keys (str "d2fx.")) (keys (str "d2fxd2fx"))).
  vm_compute. reflexivity.
Qed.

Lemma vi_dot_dd : exists v s v1 s1 v2 s2, ready v s (str "abc def") 0 /\
  run_keys vi_core (map (pair test_env) (keys (str "xddu."))) (v, s) = ORet false (v1, s1) /\
  ready v1 s1 (str "bc de") 4 /\
  run_keys vi_core (map (pair test_env) (keys (str "xddudd"))) (v, s) = ORet false (v2, s2) /\
  ready v2 s2 [] 0.
Proof.
  apply (ready_both test_env [] (keys (str "abc def") ++ [KEsc; kch "0"]) (keys (str "xddu.")) (keys (str "xddudd"))).
  vm_compute. reflexivity.
Qed.

Lemma vi_dot_cc : exists v s v1 s1 v2 s2, ready v s (str "abc") 0 /\
  run_keys vi_core (map (pair test_env) (keys (str "ccxy") ++ [KEsc; kch "0"; kch "."])) (v, s) = ORet false (v1, s1) /\
  ready v1 s1 (str "xyxy") 1 /\
  run_keys vi_core (map (pair test_env) (keys (str "ccxy") ++ KEsc :: kch "0" :: keys (str "ccxy") ++ [KEsc])) (v, s) =
    ORet false (v2, s2) /\
  ready v2 s2 (str "xy") 1.
Proof.
  apply (ready_both test_env [] (keys (str "abc") ++ [KEsc; kch "0"]) (keys (str "ccxy") ++ [KEsc; kch "0"; kch "."])
    (keys (str "ccxy") ++ KEsc :: kch "0" :: keys (str "ccxy") ++ [KEsc])).
  vm_compute. reflexivity.
Qed.
