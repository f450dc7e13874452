(** No panic: all modes of the Vi key map, repetition, and whole sessions. *)
From Verif Require Import Base Utf8 BufferModel UtilModel HistoryModel EditorState EditorModel
  KeymapModel ViModel MonadLemmas EditorLemmas CursorProofs Lemmas BufferSpec BufferProofs TextProofs UtilSpec UtilProofs
  HistorySpec HistoryProofs EditorSpec EditorProofs SuggestProofs TabSpec TabProofs ErrorProofs EditorOps
  ViSpec ViEffects ViModes ViRepeat ViMotion
  SafeSpec SafeProofs SafeEditor SafeMethods SafeEmacs SafeView SafeViSpec SafeVi.
Local Open Scope monad_scope.

Lemma sv_finally : forall (m : MV unit) f v s (Q : unit -> vi -> ed -> Prop), sv m v s (fun a v' s' => Q a (f v') s') ->
  sv (finally m f) v s Q.
Proof. intros m f v s Q H. unfold sv, safe, wp, finally in *. destruct (m (v, s)) as [a [v' s']|x [v' s']| |]; auto. Qed.

Lemma sv_assoc : forall {A B C} (m : MV A) (k1 : A -> MV B) (k2 : B -> MV C) v s Q,
  sv (bind (bind m k1) k2) v s Q -> sv (bind m (fun a => bind (k1 a) k2)) v s Q.
Proof. intros A B C m k1 k2 v s Q H. unfold sv, safe, wp, bind in *. destruct (m (v, s)); auto. Qed.

(** A run that ends does not depend on the fuel. *)
Lemma core_same : forall f E k n v s u y, J n v -> vi_core_fuel f E k (v, s) = ORet u y -> vi_core E k (v, s) = ORet u y.
Proof.
  intros f E k n v s u y HJ H. change (vi_core E k (v, s)) with (vi_core_fuel (vi_fuel v) E k (v, s)).
  assert (N1 : vi_core_fuel f E k (v, s) <> OFuel) by congruence.
  assert (N2 : vi_core_fuel (vi_fuel v) E k (v, s) <> OFuel).
  { pose proof (vk_vi_core E k n v HJ s) as K. change (vi_core E k (v, s)) with (vi_core_fuel (vi_fuel v) E k (v, s)) in K.
    intro X. rewrite X in K. exact K. }
  rewrite <- (fuel_more _ (Nat.max f (vi_fuel v)) E k (v, s) (Nat.le_max_r _ _) N2).
  rewrite (fuel_more _ (Nat.max f (vi_fuel v)) E k (v, s) (Nat.le_max_l _ _) N1). exact H.
Qed.

Section Safe.
  Context (ascii flat srch : bool) (Hfits : fits ascii flat srch).
  Notation okt := (ok_text ascii flat srch).
  Notation okc := (ok_char ascii flat srch).
  Notation F := (F ascii flat srch true).
  Notation L := (L ascii flat srch).
  Notation P := (P ascii flat srch).
  Notation okk := (okk ascii flat srch).
  Notation okl := (okl ascii flat srch).
  Notation IN := (IN ascii flat srch).
  Definition VS (v : vi) (s : ed) : Prop := P v s /\ viI (v, s) /\ exists n, J n v.

  Lemma line_of : forall s b, F s -> cur_buf s = Val b -> L s (data b) (ed_cursor s) (ed_noeol s).
  Proof. intros s b H Hb. apply L_of; assumption. Qed.
  Lemma pending_has : forall v, pending v <-> hasdel (v_stack v).
  Proof. intro v. unfold pending, hasdel. reflexivity. Qed.

  Section Env.
  Context (E : env) (HE : ok_env ascii flat srch E) (HC : ok_case ascii flat srch E).

  Lemma sv_delete : forall rec k v s t c e d l, L s t c e -> v_stack v = MDelete d :: l -> base l -> okl v -> lcm_ok v -> okk k ->
    d <= length t - 1 ->
    ((k = kch ";" /\ goes_right RepeatMove v k) \/ (k = kch "," /\ goes_right ReverseRepeat v k) -> c < length t) ->
    sv (vi_delete_or_change rec E k) v s (fun _ => P).
  Proof.
    intros rec k v s t c e d l H Hst Hb Hl Hlc Hk Hd Hr. unfold vi_delete_or_change. apply sv_getk.
    assert (Hl2 : forall n, okl (vset_cur (v_cur v ++ [k]) (vset_count n v))).
    { intro n. destruct Hl as [L1 L2]. split; [exact L1|]. vsimp. intro K. apply Forall_app. split; [apply L2; exact K|]. constructor; [exact Hk|constructor]. }
    destruct (is_movement_key k || (kis k "0" && (v_count v =? 0)%N)) eqn:Ek.
    { assert (Hkey : match k with
      | KLeft | KRight | KBackspace | KHome | KEnd => True
      | KChar c => delete_char c
      | _ => False
      end).
      { apply orb_true_iff in Ek. destruct Ek as [Ek|Ek]; [apply movement_delete; exact Ek|].
        apply andb_true_iff in Ek. destruct Ek as [Ek _]. apply kis_eq in Ek. subst k. apply digit_delete. reflexivity. }
      apply sv_modk. unfold push_cur. apply sv_modk.
      eapply (sv_normal_delete ascii flat srch Hfits E HE rec k); [exact H|exact Hst|exact Hb|apply Hl2|exact Hlc|exact Hk|exact Hd|exact Hkey|exact Hr]. }
    destruct (match k with KChar c => ((48 <=? c) && (c <=? 57))%N | _ => false end) eqn:Edg.
    { destruct k; try discriminate.
      eapply (sv_normal_delete ascii flat srch Hfits E HE rec); [exact H|exact Hst|exact Hb|exact Hl|exact Hlc|exact Hk|exact Hd|apply digit_delete; exact Edg|exact Hr]. }
    match goal with |- sv (if ?b then _ else _) _ _ _ => destruct b end.
    - unfold push_cur. apply sv_modk, sv_modk. set (v1 := vset_sec _ _).
      eapply sv_seq; [apply (sv_F ascii flat srch); apply (move_start_safe ascii flat srch true Hfits E HE); apply H|]. intros u v2 s2 [-> K2].
      eapply sv_seq; [apply (sv_F ascii flat srch); apply (delete_all_after_safe ascii flat srch true Hfits E HE); apply K2|]. intros u3 v3 s3 [-> K3].
      destruct (F_line ascii flat srch s3 K3) as [bx [_ HL]]. eapply (sv_pop_mode ascii flat srch Hfits E HE); [exact HL|unfold vmode_of, v1; vsimp; rewrite Hst; reflexivity|].
      intros s' c' e' H'. apply P_nodel; [apply H'|apply Hl|]. unfold leave_mode, v1. vsimp. rewrite Hst. cbn [tl]. apply base_nodel. exact Hb.
    - apply (sv_abort ascii flat srch Hfits E HE); [apply H|]. intros s' H'. apply P_abort; assumption.
  Qed.

  Lemma sv_g : forall k v s t c e l, L s t c e -> v_stack v = MG :: l -> shape (v_stack v) -> okl v -> okk k ->
    (forall d, In (MDelete d) (v_stack v) -> d <= length t - 1) ->
    (k = kch "e" \/ k = kch "E" -> hasdel (v_stack v) -> c < length t) ->
    sv (vi_g E k) v s (fun _ => P).
  Proof.
    intros k v s t c e l H Hst Hsh Hl Hk Hd Hr. unfold vi_g. apply sv_getk. cbv zeta. unfold push_cur. apply sv_modk.
    set (v1 := vset_cur _ v).
    assert (Hl1 : okl v1).
    { destruct Hl as [L1 L2]. split; [exact L1|]. unfold v1. vsimp. intro K. apply Forall_app. split; [apply L2; exact K|]. constructor; [exact Hk|constructor]. }
    assert (Hmv : moving v1) by (unfold moving, v1; vsimp; rewrite Hst; exact I).
    assert (W : forall ws, (k = kch "e" \/ k = kch "E") -> sv (lift (vi_move_word E ws false (move_count v)) ;;;
       finally (pop_mode_after_movement E Inclusive) (vset_count 0)) v1 s (fun _ => P)).
    { intros ws Hke. apply sv_bind, sv_lift. eapply safe_mono; [apply (L_word ascii flat srch Hfits E HE ws false _ _ _ _ _ H)|]. cbv beta.
      intros [] s1 [c1 [K1 K2]]. specialize (K2 eq_refl). apply sv_finally.
      eapply (sv_pop_am ascii flat srch Hfits E HE Inclusive); [exact K1|exact Hsh|exact Hmv| |].
      - intros d Hin. specialize (Hd d Hin). assert (c < length t) by (apply Hr; [exact Hke|exists d; exact Hin]). lia.
      - intros s' K. pose proof (P_after ascii flat srch v1 s' Hl1 Hsh Hmv K) as W. exact W. }
    destruct (kis k "e") eqn:E1; [apply W; left; apply kis_eq; exact E1|].
    destruct (kis k "E") eqn:E2; [apply W; right; apply kis_eq; exact E2|].
    apply sv_bind. apply (sv_abort ascii flat srch Hfits E HE); [apply H|]. intros s' H'. apply sv_modk1. apply P_abort; assumption.
  Qed.

  (** * One key *)
  Lemma VS_keep : forall f k v s, VS v s -> sv (vi_core_fuel f E k) v s (fun _ => P) -> sv (vi_core_fuel f E k) v s (fun _ => VS).
  Proof.
    intros f k v s [_ [HI [n HJ]]] H. pose proof (kp_vi_core_fuel f E k (v, s) HI) as W.
    pose proof (core_same f E k n v s) as C. pose proof (vk_vi_core E k n v HJ s) as K.
    unfold sv, safe, wp in *. destruct (vi_core_fuel f E k (v, s)) as [a [v' s']| | |]; auto.
    rewrite (C a (v', s') HJ eq_refl) in K. split; [exact H|]. split; [exact W|exact K].
  Qed.
  Lemma sv_core_step : forall f k v s, VS v s -> okk k -> step_ok E k v s -> (vmode_of v = MNormal -> kis k "." = false) ->
    sv (vi_core_fuel f E k) v s (fun _ => P).
  Proof.
    intros [|f] k v s HV Hk Hs Hdot; [exact I|]. destruct HV as [[HF [Hl Hd]] [HI [n HJ]]]. cbn [vi_core_fuel]. apply sv_getk.
    destruct (F_line ascii flat srch s HF) as [b [Hb HL]]. destruct (Hs b Hb) as [S1 S2].
    pose proof (j_shape _ _ HJ) as Hsh. assert (Hlc : lcm_ok v) by exact (j_lcm _ _ HJ).
    assert (Hdd : forall d, In (MDelete d) (v_stack v) -> d <= length (data b) - 1) by (intros d K; exact (Hd d b K Hb)).
    assert (S1' : hasdel (v_stack v) -> takes_cursor v k -> ed_cursor s < length (data b)) by exact S1. clear S1.
    unfold takes_cursor in S1'. unfold vmode_of in *.
    destruct (v_stack v) as [|m l] eqn:Est.
    - eapply (sv_normal ascii flat srch Hfits E HE HC); [exact HL|exact Est|exact Hl|exact Hlc|exact Hk| |intros K1 K2; apply S2; auto|apply Hdot; reflexivity].
      destruct HI as [[b' [Hb' Hcl]] Hn]. cbn [fst snd] in *. rewrite Hb in Hb'. injection Hb' as <-. rewrite Hn in Hcl. unfold vmode_of in Hcl.
      rewrite Est in Hcl. cbn [is_normal] in Hcl. unfold num_chars in Hcl. destruct (Nat.eq_dec (length (data b)) 0) as [E0|E0].
      + pose proof (clamp_le _ _ _ Hcl). lia.
      + pose proof (clamp_lt _ _ Hcl ltac:(lia)). lia.
    - destruct m as [| | |d|m| |].
      + assert (l = []) by (inversion Hsh; reflexivity). subst l.
        assert (HN : IN v s).
        { split; [exact HF|]. split; [exact Est|]. pose proof (j_last _ _ HJ) as Jl. destruct Hl as [L1 _].
          rewrite Forall_forall in *. intros x Hx. split; [apply L1|apply Jl]; exact Hx. }
        assert (Hp : forall v' s', IN v' s' -> P v' s').
        { intros v' s' [K1 [K2 K3]]. apply P_nodel; [exact K1|eapply Forall_impl; [|exact K3]; intros x [K _]; exact K|].
          rewrite K2. apply base_nodel. right. reflexivity. }
        destruct (is_esc k) eqn:Ee.
        * unfold vi_insert. destruct k as [x|x|x| | | | | | | | | | |]; try discriminate; [cbn [is_esc] in Ee; rewrite Ee|];
            apply (sv_insert_esc ascii flat srch Hfits E HE); exact HN.
        * eapply sv_mono; [apply (sv_insert_plain ascii flat srch Hfits E HE); assumption|]. intros ? v' s' K. apply Hp. exact K.
      + inversion Hsh.
      + assert (l = []) by (inversion Hsh; reflexivity). subst l. apply (sv_replace ascii flat srch Hfits E HE); assumption.
      + assert (Hb2 : base l) by (inversion Hsh; assumption).
        eapply sv_delete; [exact HL|exact Est|exact Hb2|exact Hl|exact Hlc|exact Hk|apply Hdd; left; reflexivity|].
        intro K. apply S1'; [exists d; left; reflexivity|exact K].
      + eapply (sv_move_to_char ascii flat srch Hfits E HE); [exact HL|rewrite Est; exact Hsh|unfold moving; rewrite Est; exact I|exact Hl|exact Hk|exact Hlc| |];
          rewrite Est; [exact Hdd|intros K1 K2; apply S1'; assumption].
      + eapply sv_g; [exact HL|exact Est|rewrite Est; exact Hsh|exact Hl|exact Hk|rewrite Est; exact Hdd|rewrite Est; intros K1 K2; apply S1'; assumption].
      + inversion Hsh.
  Qed.

  (** Keys that complete no deletion *)
  Lemma careful_other : forall k v s n, J n v -> (forall c, k <> KChar c) -> careful 0 E k v s.
  Proof.
    intros k v s n HJ Hk. pose proof (j_shape _ _ HJ) as Hsh. split; [|intros _ ->; destruct (Hk _ eq_refl)].
    intros b _. split; [|intros _ ->; destruct (Hk _ eq_refl)].
    intros _ K. exfalso. unfold takes_cursor, vmode_of in K. destruct (v_stack v) as [|m l]; [exact K|].
    destruct m as [| | |d|m| |]; try exact K.
    - destruct K as [[-> _]|[-> _]]; destruct (Hk _ eq_refl).
    - assert (Hd : direct m) by (inversion Hsh; assumption). destruct m; try (destruct Hd; congruence); cbn [goes_right] in K; try exact K;
        destruct K as [c ->]; destruct (Hk _ eq_refl).
    - destruct K as [-> | ->]; destruct (Hk _ eq_refl).
  Qed.
  Lemma okk_insert : forall k, insert_key k -> okk k.
  Proof.
    intros k [c [-> Hc]]. cbn [str In] in Hc.
    repeat (destruct Hc as [<-|Hc]; [apply okk_lit; [reflexivity|discriminate|discriminate|discriminate]|]). contradiction.
  Qed.
  Lemma VS_last : forall l v s, VS v s -> Forall okk l -> Forall plain l -> VS (vset_last l v) s.
  Proof.
    intros l v s [[H1 [[H2 H3] H4]] [HI [n HJ]]] K1 K2. split; [|split].
    - split; [exact H1|]. split; [split; [exact K1|exact H3]|exact H4].
    - exact HI.
    - exists (n + length l). destruct HJ as [J1 J2 J3 J4 J5 J6 J7 J8]. constructor; vsimp; auto; try lia.
      intro K. destruct (J4 K). split; [assumption|lia].
  Qed.

  Lemma sv_keys : forall n f, (forall k v s, VS v s -> okk k -> careful n E k v s -> sv (vi_core_fuel f E k) v s (fun _ => VS)) ->
    forall l v s, VS v s -> Forall okk l -> each_ok (careful n E) E l v s -> sv (mfor l (vi_core_fuel f E)) v s (fun _ => VS).
  Proof.
    intros n f IH. induction l as [|k l IHl]; intros v s HV Hl Hc; cbn [mfor]; [exact HV|]. inversion Hl; subst.
    cbn [each_ok] in Hc. destruct Hc as [C1 C2]. pose proof HV as [_ [_ [m HJ]]]. pose proof (IH k v s HV H1 C1) as W.
    pose proof (core_same f E k m v s) as S. apply sv_bind. unfold sv at 1. unfold safe, wp in *. unfold sv, safe, wp in W.
    destruct (vi_core_fuel f E k (v, s)) as [[] [v' s']| | |]; [|exact I|exact W|exact I].
    apply IHl; [exact W|exact H2|]. apply C2. apply S; [exact HJ|reflexivity].
  Qed.

  Lemma sv_core : forall n f k v s, VS v s -> okk k -> careful n E k v s -> sv (vi_core_fuel f E k) v s (fun _ => VS).
  Proof.
    induction n as [|n IH]; intros f k v s HV Hk Hc.
    { apply VS_keep; [exact HV|]. apply sv_core_step; [exact HV|exact Hk|apply Hc|]. intro Hm. destruct (kis k ".") eqn:Ed; [|reflexivity].
      apply kis_eq in Ed. destruct Hc as [_ Hc]. destruct (Hc Hm Ed). }
    destruct Hc as [Hs Hc].
    assert (Hstep : (vmode_of v = MNormal -> kis k "." = false) -> sv (vi_core_fuel f E k) v s (fun _ => VS)).
    { intro Hd. apply VS_keep; [exact HV|]. apply sv_core_step; assumption. }
    destruct (kis k ".") eqn:Ed; [|apply Hstep; reflexivity].
    destruct (is_normal (vmode_of v)) eqn:En; [|apply Hstep; intro Hm; rewrite Hm in En; discriminate].
    assert (Hm : vmode_of v = MNormal) by (destruct (vmode_of v); try discriminate; reflexivity).
    apply kis_eq in Ed. specialize (Hc Hm Ed). subst k. clear Hstep Hs.
    destruct f as [|f]; [exact I|]. cbn [vi_core_fuel]. apply sv_getk. rewrite Hm. unfold vi_normal.
    repeat (match goal with
      | |- sv (if ?b then _ else _) _ _ _ =>
          let b' := eval vm_compute in b in
          match b' with true => change b with true | false => change b with false end
      end; cbv iota).
    apply sv_modk. unfold vi_repeat. apply sv_modk, sv_getk. cbv zeta. apply sv_modk.
    pose proof HV as [[H1 [[H2 H3] H4]] [HI [m HJ]]]. pose proof (j_last _ _ HJ) as Hpl. pose proof (j_lastins _ _ HJ) as Hli.
    match goal with |- sv _ ?x _ _ => change x with (repeating v) end.
    assert (HR : VS (repeating v) s).
    { assert (H0 : VS (vset_last [] v) s) by (apply VS_last; [exact HV|constructor|constructor]).
      destruct H0 as [A1 [A2 [m' A3]]]. split; [exact A1|]. split; [exact A2|]. exists m'. destruct A3 as [J1 J2 J3 J4 J5 J6 J7 J8].
      constructor; assumption. }
    match goal with |- context [v_last (vset_lcount ?a ?b)] => change (v_last (vset_lcount a b)) with (v_last v) end.
    match goal with |- context [v_lastins (vset_lcount ?a ?b)] => change (v_lastins (vset_lcount a b)) with (v_lastins v) end.
    assert (Hrep : sv (match v_lastins v with Some ik => vi_core_fuel f E ik | None => ret tt end ;;;
       mfor (v_last v) (vi_core_fuel f E)) (repeating v) s (fun _ => VS)).
    { unfold repeated in Hc. destruct (v_lastins v) as [ik|].
      - apply (sv_keys n f (IH f) (ik :: v_last v)); [exact HR| |exact Hc]. constructor; [apply okk_insert, Hli; reflexivity|exact H2].
      - apply (sv_keys n f (IH f) (v_last v)); [exact HR|exact H2|exact Hc]. }
    assert (Hend : forall l v s, Forall okk l -> Forall plain l -> VS v s -> sv (v <- getk ;;
       match v_lastins v with Some _ => vi_core_fuel f E KEsc | None => ret tt end ;;; modk (vset_last l)) v s (fun _ => VS)).
    { intros l v0 s0 K1 K2 K. apply sv_getk. eapply sv_seq with (R := fun _ => VS).
      - destruct (v_lastins v0); [|exact K]. apply (VS_keep f); [exact K|]. apply sv_core_step; [exact K|exact I| |reflexivity].
        destruct K as [_ [_ [m0 J0]]]. apply (careful_other KEsc v0 s0 m0 J0). discriminate.
      - intros u v1 s1 K3. apply sv_modk1. apply VS_last; assumption. }
    apply sv_assoc. eapply sv_seq; [exact Hrep|]. intros u v1 s1 K. apply Hend; assumption.
  Qed.

  (** * Keys handled before the key map *)
  Definition grows {A} (m : ME A) (s : ed) : Prop := forall a s' b b', m s = ORet a s' -> cur_buf s = Val b -> cur_buf s' = Val b' ->
    length (data b) <= length (data b').
  Lemma grows_newline : forall s, is_search s = false -> grows (handle_newline E) s.
  Proof.
    intros s H d s' b b' Hr Hb Hb'. destruct (newline_out E s b d s' H Hb Hr) as [_ [N1 [N2 N3]]].
    assert (Hl : forall t c, line_is s' t c -> data b' = t) by (intros t c [b2 [K1 [K2 _]]]; congruence).
    destruct d.
    - specialize (N1 eq_refl). unfold ed_result in N1. rewrite Hb' in N1. cbn [rbind] in N1. injection N1 as N1. unfold buf_string in N1. rewrite N1. lia.
    - destruct (ed_hint s) as [h|].
      + destruct (N2 eq_refl ltac:(discriminate)) as [N4 _]. rewrite (Hl _ _ N4). lia.
      + destruct (N3 eq_refl eq_refl) as [a [r [N4 [_ N5]]]]. rewrite (Hl _ _ N5), N4, !app_length. cbn [length]. lia.
  Qed.
  Lemma grows_accept : forall s, F s -> is_search s = false -> grows (accept_autosuggestion E) s.
  Proof.
    intros s HF Hs u s' b b' Hr Hb Hb'.
    assert (Hfin : forall s0, is_search (clear_search s0) = false -> forall b0, cur_buf s0 = Val b0 ->
      move_cursor_to_end_of_line E (clear_search s0) = ORet u s' -> b' = b0).
    { intros s0 H0 b0 Hb0 K. assert (Hc : cur_buf (clear_search s0) = Val b0) by (rewrite cur_buf_clear; exact Hb0).
      destruct (move_end_out E _ _ _ _ H0 Hc K) as [g [tcl [cb [tty ->]]]]. rewrite cur_buf_shown in Hb'. congruence. }
    unfold accept_autosuggestion in Hr. rewrite bind_get in Hr. apply bind_inv in Hr as [u0 [s0 [H0 Hr]]]. rewrite bind_modify in Hr.
    destruct (ed_showauto s) eqn:Ea; cbn [when] in H0; [|injection H0 as _ <-; rewrite (Hfin s eq_refl b Hb Hr); lia].
    rewrite (with_cur_mut_eq _ _ _ Hb), Hs in H0. unfold unit_op in H0.
    destruct (ed_sugg s) as [g|] eqn:Eg.
    - destruct HF as [_ [_ Hsg]]. destruct (Hsg g Eg) as [_ Hx]. destruct (Hx Hs b Hb) as [r Er].
      assert (Hle : length (data (opened s b)) <= length (data g)) by (rewrite data_opened, Er, app_length; lia).
      destruct (extend_step (opened s b) (data g) Hle) as [ac [d' [S1 [S2 S3]]]].
      assert (Heq : insert_from_buffer (opened s b) g = insert_from_buffer (opened s b) (buf_of (data g))) by reflexivity.
      rewrite Heq, S2 in H0. cbn [rbind] in H0. injection H0 as _ <-.
      rewrite (Hfin _ eq_refl _ (cur_store _ _) Hr). cbn [data]. rewrite S3, app_length, data_opened. lia.
    - cbn [rbind] in H0. injection H0 as _ <-. rewrite (Hfin _ eq_refl _ (cur_store _ _) Hr), data_opened. lia.
  Qed.
  Lemma VS_F : forall v s, VS v s -> F s.
  Proof. intros v s [[H _] _]. exact H. Qed.
  Lemma VS_lift : forall {A} (m : ME A) v s, VS v s -> safe m s (fun _ => F) -> preserves m -> (~ pending v \/ grows m s) ->
    safe (lift m) (v, s) (fun _ y => VS (fst y) (snd y)).
  Proof.
    intros A m v s [[H1 [H2 H3]] [HI HJ]] Hm Hp Hg.
    pose proof (kpres_lift m viI viI_local Hp (v, s) HI) as W. apply safe_lift. unfold safe, wp, lift in *.
    destruct (m s) as [a s'| | |] eqn:Em; auto. cbn [fst snd] in *.
    split; [|split; [exact W|exact HJ]]. split; [exact Hm|]. split; [exact H2|]. intros d b' Hd Hb'.
    destruct Hg as [Hg|Hg]; [exfalso; apply Hg; exists d; exact Hd|].
    destruct (cur_safe _ _ _ _ s (proj1 H1)) as [b [Hb _]]. specialize (Hg a s' b b' Em Hb Hb'). specialize (H3 d b Hd Hb). lia.
  Qed.
  Lemma VS_hint : forall v s, VS v s -> VS v (set_hint None s).
  Proof.
    intros v s [[H1 [H2 H3]] [HI HJ]]. split; [|split; [exact HI|exact HJ]]. split; [apply F_hint; exact H1|]. split; [exact H2|exact H3].
  Qed.
  Lemma vi_key_safe : forall k v s, ok_key ascii flat srch k -> VS v s -> key_careful E k v s ->
    safe (vi_key E k) (v, s) (fun _ y => VS (fst y) (snd y)).
  Proof.
    intros k v s Hk HV [C1 [C2 [C4 C3]]]. pose proof (VS_F _ _ HV) as HF. unfold vi_key.
    assert (Hor : forall A (m : ME A), (pending v -> is_search s = true -> False) -> (is_search s = false -> grows m s) -> ~ pending v \/ grows m s).
    { intros A m Hn Hg. destruct (is_search s) eqn:Es; [left; intro K; exact (Hn K eq_refl)|right; apply Hg; reflexivity]. }
    apply (handle_key_at ascii flat srch true vi_core (fun y => VS (fst y) (snd y)) E k v s HE Hk HF).
    - intros x s0 K. apply VS_hint. exact K.
    - intros Ek b K1 K2 K3. apply C1; assumption.
    - intro Ek. apply VS_lift; [exact HV|apply (newline_safe ascii flat srch true Hfits E HE); exact HF|apply ps_newline|].
      apply Hor; [intros K1 K2; apply (C4 K1 K2); exact Ek|intro K; apply grows_newline; exact K].
    - apply safe_lift. eapply safe_mono; [apply (newline_safe ascii flat srch true Hfits E HE); exact HF|]. intros; exact I.
    - intros Ek _. apply VS_lift; [exact HV|apply (accept_safe ascii flat srch true Hfits E HE); apply HF|apply restores_preserves, rs_accept|].
      apply Hor; [intros K1 K2; destruct (C4 K1 K2) as [K3 [K4 _]]; destruct Ek; contradiction|intro K; apply grows_accept; [exact HF|exact K]].
    - intro Ek. apply VS_lift; [exact HV|apply (complete_safe ascii flat srch true Hfits E HE); exact HF|apply ps_complete|]. left. intro K. exact (proj1 (C2 K) Ek).
    - intros Ek Hsr fw. apply VS_lift; [exact HV|apply (search_safe ascii flat srch true Hfits E HE); [apply HF|exact Hsr]|apply restores_preserves, rs_search|].
      left. intro K. destruct (C2 K) as [_ [K1 K2]]. destruct Ek; contradiction.
    - intros k' Hch.
      assert (Hok : okk k') by (destruct k' as [c|c|c| | | | | | | | | | |] eqn:Ek; try exact I; apply (Hch c eq_refl)).
      assert (Hcare : exists n, careful n E k' v s).
      { destruct HV as [_ [_ [n HJ]]]. destruct k' as [c|c|c| | | | | | | | | | |] eqn:Ek'; try (exists 0; eapply careful_other; [exact HJ|discriminate]).
        destruct (Hch c eq_refl) as [_ [Ek Hn]]. rewrite <- Ek. apply C3. rewrite Ek. congruence. }
      destruct Hcare as [n Hn]. change (vi_core E k' (v, s)) with (vi_core_fuel (vi_fuel v) E k' (v, s)).
      pose proof (sv_core n (vi_fuel v) k' v s HV Hok Hn) as W. exact W.
  Qed.
  End Env.

  (** * Sessions *)
  Lemma vi_run_safe : forall keys v s,
    Forall (fun ek => ok_env ascii flat srch (fst ek) /\ ok_case ascii flat srch (fst ek) /\ ok_key ascii flat srch (snd ek)) keys ->
    VS v s -> keys_careful keys v s -> safe (run_keys vi_core keys) (v, s) (fun _ y => VS (fst y) (snd y)).
  Proof.
    induction keys as [|[E k] keys IH]; intros v s Hk HV Hc; cbn [run_keys]; [exact HV|].
    inversion Hk as [|? ? [K1 [K2 K3]] K4]; subst. cbn [fst snd keys_careful] in *. destruct Hc as [C1 C2].
    pose proof (vi_key_safe E K1 K2 k v s K3 HV C1) as W. apply safe_bind. fold (vi_key). unfold safe at 1, wp at 1. unfold safe, wp in W.
    destruct (vi_key E k (v, s)) as [d [v' s']| | |] eqn:Ek; [|exact I|exact W|exact I].
    destruct d; [exact W|]. apply IH; [exact K4|exact W|]. apply C2. reflexivity.
  Qed.
  Lemma vi_start_safe : forall E p f ib h w cb ttys s,
    ok_env ascii flat srch E -> h_share h = false -> Forall okt (texts h) -> okt (data ib) -> actions ib = [] -> undone ib = [] ->
    e_ttywidth E <> Some 0 -> (srch = true -> pr_vi p = None) -> editor_new E p f ib h w cb ttys = ORet tt s ->
    safe (vi_init E) (vi_new, s) (fun _ y => VS (fst y) (snd y)).
  Proof.
    intros E p f ib h w cb ttys s HE Hsh Hh Hd Ha Hu Htw Hpr En.
    pose proof (editor_new_safe ascii flat srch true Hfits E p f ib h w cb ttys HE Hsh Hh Hd Ha Hu Htw Hpr) as HN.
    rewrite En in HN. destruct HN as [HF Eh]. destruct (editor_new_curok _ _ _ _ _ _ _ _ _ En) as [Hc1 Hc2].
    assert (HI0 : viI (vi_new, s)) by (split; [exact Hc1|exact Hc2]).
    pose proof (kp_vi_init E (vi_new, s) HI0) as W.
      assert (W2 : sv (vi_init E) vi_new s (fun _ v' s' => v' = vi_new /\ F s')).
      { unfold vi_init. eapply sv_seq; [apply (sv_groupF ascii flat srch); [left; reflexivity|exact HF]|]. intros u v1 s1 [-> K1].
        destruct (F_line ascii flat srch s1 K1) as [bx [_ HL]]. eapply (sv_set_editor_mode ascii flat srch Hfits E HE); [exact HL|].
        intros s' c' H' _. split; [reflexivity|apply H']. }
      unfold sv, safe, wp in *. destruct (vi_init E (vi_new, s)) as [a [v' s']| | |]; auto. cbn [fst snd] in *. destruct W2 as [-> K].
      split; [|split; [exact W|exists 0; exact J_new]]. apply P_nodel; [exact K|constructor|]. apply base_nodel. right. reflexivity.
  Qed.
  Lemma vi_session_safe : forall E p f ib h w cb ttys keys q,
    ok_env ascii flat srch E ->
    Forall (fun ek => ok_env ascii flat srch (fst ek) /\ ok_case ascii flat srch (fst ek) /\ ok_key ascii flat srch (snd ek)) keys ->
    h_share h = false -> Forall okt (texts h) -> okt (data ib) -> actions ib = [] -> undone ib = [] -> e_ttywidth E <> Some 0 -> (srch = true -> pr_vi p = None) ->
    (forall s v s', editor_new E p f ib h w cb ttys = ORet tt s -> vi_init E (vi_new, s) = ORet tt (v, s') -> keys_careful keys v s') ->
    vi_read_line E p f ib h w cb ttys keys = OPanic q -> q = PU16.
  Proof.
    intros E p f ib h w cb ttys keys q HE Hk Hsh Hh Hd Ha Hu Htw Hpr Hcare H. unfold vi_read_line, read_line in H.
    pose proof (editor_new_safe ascii flat srch true Hfits E p f ib h w cb ttys HE Hsh Hh Hd Ha Hu Htw Hpr) as HN.
    destruct (editor_new E p f ib h w cb ttys) as [[] s|e s|q'|] eqn:En; try discriminate; [|congruence].
    destruct HN as [HF Eh]. destruct (editor_new_curok _ _ _ _ _ _ _ _ _ En) as [Hc1 Hc2].
    pose proof (vi_start_safe E p f ib h w cb ttys s HE Hsh Hh Hd Ha Hu Htw Hpr En) as Hinit.
    match type of H with ?m ?st = _ => assert (HS : safe m st (fun _ _ => True)) end.
    { apply safe_bind. unfold safe at 1, wp at 1. unfold safe, wp in Hinit.
      destruct (vi_init E (vi_new, s)) as [[] [v' s']| | |] eqn:Ei; [|exact I|exact Hinit|exact I].
      eapply safe_seq; [apply vi_run_safe; [exact Hk|exact Hinit|eapply Hcare; [reflexivity|exact Ei]]|].
      intros d [x1 s1] K. apply VS_F in K. cbn [snd] in K. apply safe_bind.
      change (safe gete (x1, s1)) with (fun Q : ed -> vi * ed -> Prop => Q s1 (x1, s1)). cbv beta.
      destruct (cur_safe _ _ _ _ s1 (proj1 K)) as [b [Hb _]]. eapply safe_liftr; [unfold ed_result; rewrite Hb; reflexivity|exact I]. }
    exact (wp_pan_of _ _ _ _ (fun p => p = PU16) q HS H).
  Qed.
End Safe.

(** Checks a concrete session, for the Examples. *)
Ltac step_concrete :=
  let b := fresh "b" in let H := fresh "H" in intros b H; vm_compute in H; injection H as <-; split; intros;
  first [ solve [vm_compute; repeat constructor]
        | solve [match goal with K : pending _ |- _ => destruct K as [? K]; vm_compute in K; decompose [or] K; try contradiction; discriminate end]
        | solve [match goal with K : takes_cursor _ _ |- _ => vm_compute in K; decompose [or and ex] K; try contradiction; discriminate end]
        | exfalso; match goal with K : _ = _ |- _ => vm_compute in K; discriminate K end
        | split; [reflexivity|discriminate] ].
Ltac careful_concrete :=
  let v := fresh "v" in let s := fresh "s" in let H := fresh "H" in
  first [ split; [step_concrete|intros H; vm_compute in H; discriminate H]
        | split; [step_concrete|intros _ H; vm_compute in H; discriminate H]
        | split; [step_concrete|intros _ _; vm_compute repeated; vm_compute repeating;
            repeat (split; [careful_concrete|intros v s H; vm_compute in H; injection H as <- <-]); exact I] ].
Ltac not_pending := solve [intros [? K]; vm_compute in K; decompose [or] K; try contradiction; discriminate].
Ltac key_concrete n := split; [solve [intros; first [discriminate | match goal with K : _ = _ |- _ => vm_compute in K; discriminate K end]]
  | split; [first [solve [intros _; repeat split; discriminate]|not_pending]
  | split; [first [solve [intros _ _; repeat split; discriminate]|not_pending|solve [intros _ K; vm_compute in K; discriminate K]]
           |intro; first [congruence | exists n; careful_concrete]]]].
Ltac session_concrete n :=
  repeat (split; [key_concrete n|let v := fresh "v" in let s := fresh "s" in let H := fresh "H" in
    intros v s H; vm_compute in H; first [discriminate H | injection H as <- <-]]).
