(** Sessions with a completer that gets events, against sessions whose
    completer is part of the surroundings. *)
From Verif Require Import Base Utf8 BufferModel UtilModel HistoryModel EditorState EditorModel KeymapModel ViModel
  CompleteModel ReplModel EventModel EventSpec MonadLemmas.
Local Open Scope monad_scope.

Section Sim.
Context {D K : Type}.
Variable C : completer D.
Hypothesis HL : only_looks C.
Let bad := ~ no_panic C.

Definition sim {A} (m' : MK (D * K) A) (m : MK K A) : Prop := forall d x s,
  (bad /\ exists p, m' ((d, x), s) = OPanic p) \/ forget (m' ((d, x), s)) = m (x, s).

Lemma sim_bind : forall {A B} (m' : MK (D * K) A) m (k' : A -> MK (D * K) B) k,
  sim m' m -> (forall a, sim (k' a) (k a)) -> sim (bind m' k') (bind m k).
Proof.
  intros A B m' m k' k H1 H2 d x s. unfold bind. destruct (H1 d x s) as [[Hb [p Hp]]|H].
  - left. split; [exact Hb|]. exists p. rewrite Hp. reflexivity.
  - rewrite <- H. destruct (m' (d, x, s)) as [a [[d' x'] s']|e [[d' x'] s']|p|]; cbn [forget]; [apply H2| right; reflexivity ..].
Qed.
Lemma sim_ret : forall {A} (a : A), sim (ret a) (ret a).
Proof. intros A a d x s. right. reflexivity. Qed.
Lemma sim_fail : forall {A} e, sim (fail e : MK (D * K) A) (fail e).
Proof. intros A e d x s. right. reflexivity. Qed.
Lemma sim_lift : forall {A} (m : ME A), sim (lift m) (lift m).
Proof. intros A m d x s. right. unfold lift. destruct (m s); reflexivity. Qed.
Lemma sim_inner : forall {A} (m : MK K A), sim (inner m) m.
Proof. intros A m d x s. right. unfold inner. destruct (m (x, s)) as [a [x' s']|e [x' s']|p|]; reflexivity. Qed.
Lemma sim_mod : forall f, sim (mod_ed f) (mod_ed f).
Proof. intros f d x s. right. reflexivity. Qed.
Lemma sim_gete : sim gete gete.
Proof. intros d x s. right. reflexivity. Qed.
Lemma sim_liftr : forall {A} (r : res A), sim (liftr r) (liftr r).
Proof. intros A r d x s. right. destruct r; reflexivity. Qed.
Lemma sim_res : forall {A} (r : res A),
  sim (fun st => match r with Val b => ORet b st | Pan p => OPanic p end) (fun st => match r with Val b => ORet b st | Pan p => OPanic p end).
Proof. intros A r d x s. right. destruct r; reflexivity. Qed.
Lemma sim_send : forall E ev, sim (send C E ev) (ret tt).
Proof.
  intros E ev d x s. unfold send. destruct (c_event C E ev d s) as [[d' s']|p] eqn:H.
  - right. rewrite (HL _ _ _ _ _ _ H). reflexivity.
  - left. split; [|eauto]. intros [N _]. destruct (N E ev d s) as [r Hr]. congruence.
Qed.

Lemma ans_word : forall E l, delete_word_before_cursor (answering E l) = delete_word_before_cursor E.
Proof. reflexivity. Qed.
Lemma ans_insert : forall E l, insert_str_after_cursor (answering E l) = insert_str_after_cursor E.
Proof. reflexivity. Qed.
Lemma ans_display : forall E l, display (answering E l) = display E.
Proof. reflexivity. Qed.
Lemma ans_before : forall E l, get_word_before_cursor (answering E l) = get_word_before_cursor E.
Proof. reflexivity. Qed.

Lemma shown_same : forall E l s h, ed_hint s = Some h -> complete E s = complete (answering E l) s.
Proof.
  intros E l s [cs i] H. unfold complete. rewrite !bind_get. rewrite H. rewrite ans_word, ans_insert, ans_display. reflexivity.
Qed.

Lemma lift_at : forall {X A} (m : ME A) (x : X) s, lift m (x, s) =
  match m s with ORet a s' => ORet a (x, s') | OErr e s' => OErr e (x, s') | OPanic p => OPanic p | OFuel => OFuel end.
Proof. reflexivity. Qed.
Lemma bind_gete : forall {X A} (k : ed -> MK X A) x s, bind gete k (x, s) = k s (x, s).
Proof. reflexivity. Qed.
Lemma bind_val : forall {S A B} (a : A) (k : A -> M S B) s, bind (liftr (Val a)) k s = k a s.
Proof. reflexivity. Qed.
Lemma lift_bind : forall {X A B} (m : ME A) (k : A -> ME B) (st : X * ed),
  lift (bind m k) st = bind (lift m) (fun a => lift (k a)) st.
Proof. intros X A B m k [x s]. unfold lift, bind. destruct (m s); reflexivity. Qed.

(** The word a completer is asked about. *)
Definition find_word (E : env) (s : ed) : ME text :=
  wr <- liftr (get_word_before_cursor E false s) ;;
  with_cur_mut (fun b => rbind (match wr with Some (st, en) => buf_range b st en | None => Val [] end) (fun w => Val (w, b))).

Definition rest (E : env) (l : list text) (word : text) : ME unit :=
  let completions := dedup_adj (sort_texts l) in
  match completions with
  | [] => modify (set_hint None)
  | [c] => modify (set_hint None) ;;; delete_word_before_cursor E false ;;; insert_str_after_cursor E c
  | _ =>
    match find_longest_common_prefix completions with
    | Some p =>
      if (blen word <? blen p) && prefixb word p then
        delete_word_before_cursor E false ;;; insert_str_after_cursor E p
      else modify (set_hint (Some (completions, None))) ;;; display E
    | None => modify (set_hint (Some (completions, None))) ;;; display E
    end
  end.
Definition rest_with (E : env) (l : list text) (word : text) : MK (D * K) unit :=
  let completions := dedup_adj (sort_texts l) in
  match completions with
  | [] => lift (modify (set_hint None))
  | [c] => lift (modify (set_hint None)) ;;; lift (delete_word_before_cursor E false) ;;; lift (insert_str_after_cursor E c)
  | _ =>
    match find_longest_common_prefix completions with
    | Some p =>
      if (blen word <? blen p) && prefixb word p then
        lift (delete_word_before_cursor E false) ;;; lift (insert_str_after_cursor E p)
      else lift (modify (set_hint (Some (completions, None)))) ;;; lift (display E)
    | None => lift (modify (set_hint (Some (completions, None)))) ;;; lift (display E)
    end
  end.

Lemma complete_eq : forall E l s, ed_hint s = None -> complete (answering E l) s = (word <- find_word E s ;; rest E l word) s.
Proof.
  intros E l s Eh. unfold complete. rewrite bind_get, Eh, ans_before. unfold find_word, bind.
  destruct (get_word_before_cursor E false s) as [wr|]; [|reflexivity]. cbn [liftr ret].
  match goal with |- match ?x with _ => _ end = _ => destruct x; reflexivity end.
Qed.
Lemma complete_with_eq : forall E d (x : K) s d1, c_event C E BeforeComplete d s = Val (d1, s) -> ed_hint s = None ->
  complete_with C E ((d, x), s) = (word <- lift (find_word E s) ;; answer <- ask C word ;; rest_with E answer word) ((d1, x), s).
Proof.
  intros E d x s d1 He Eh. unfold complete_with.
  assert (Es : send C E BeforeComplete (d, x, s) = ORet tt (d1, x, s)) by (unfold send; rewrite He; reflexivity).
  rewrite (bind_ret_eq _ _ _ _ _ Es), bind_gete, Eh. unfold find_word, bind.
  destruct (get_word_before_cursor E false s) as [wr|]; [|reflexivity]. cbn [liftr ret]. rewrite !lift_at. cbn [liftr ret].
  match goal with |- match match ?x with _ => _ end with _ => _ end = _ => destruct x; reflexivity end.
Qed.
Lemma rest_same : forall E l word d x s, forget (rest_with E l word ((d, x), s)) = lift (rest E l word) (x, s).
Proof.
  intros E l word d x s. unfold rest_with, rest. cbv zeta. unfold lift, bind.
  destruct (dedup_adj (sort_texts l)) as [|c1 [|c2 cs]].
  - reflexivity.
  - cbn [modify]. destruct (delete_word_before_cursor E false (set_hint None s)) as [? s2| | |]; try reflexivity.
    destruct (insert_str_after_cursor E c1 s2); reflexivity.
  - destruct (find_longest_common_prefix (c1 :: c2 :: cs)) as [p|]; [destruct ((blen word <? blen p) && prefixb word p)|].
    + destruct (delete_word_before_cursor E false s) as [? s2| | |]; try reflexivity.
      destruct (insert_str_after_cursor E p s2); reflexivity.
    + cbn [modify]. match goal with |- context [display E ?z] => destruct (display E z); reflexivity end.
    + cbn [modify]. match goal with |- context [display E ?z] => destruct (display E z); reflexivity end.
Qed.

(** With the answer to the word known. *)
Lemma complete_with_at : forall E d (x : K) s d1 w l d2, c_event C E BeforeComplete d s = Val (d1, s) -> ed_hint s = None ->
  (forall word s1, find_word E s s = ORet word s1 -> word = w) -> c_completions C w d1 = Val (l, d2) ->
  forget (complete_with C E ((d, x), s)) = lift (complete (answering E l)) (x, s) /\
  (forall u d' x' s', complete_with C E ((d, x), s) = ORet u ((d', x'), s') -> d' = d2).
Proof.
  intros E d x s d1 w l d2 He Eh Hw Ha. rewrite (complete_with_eq E d x s d1 He Eh). rewrite lift_at, (complete_eq E l s Eh).
  unfold bind. rewrite lift_at. destruct (find_word E s s) as [word s1|e s1|p|] eqn:Ef; try (split; [reflexivity|discriminate]).
  rewrite (Hw _ _ eq_refl). unfold ask. rewrite Ha. split; [apply rest_same|].
  intros u d' x' s'. unfold rest_with. cbv zeta. unfold lift, bind.
  destruct (dedup_adj (sort_texts l)) as [|c1 [|c2 cs]].
  - cbn [modify]. intro H. injection H as <- <- <- <-. reflexivity.
  - cbn [modify]. destruct (delete_word_before_cursor E false (set_hint None s1)) as [? s2| | |]; try discriminate.
    destruct (insert_str_after_cursor E c1 s2); try discriminate. intro H. injection H as <- <- <- <-. reflexivity.
  - destruct (find_longest_common_prefix (c1 :: c2 :: cs)) as [p|]; [destruct ((blen w <? blen p) && prefixb w p)|].
    + destruct (delete_word_before_cursor E false s1) as [? s2| | |]; try discriminate.
      destruct (insert_str_after_cursor E p s2); try discriminate. intro H. injection H as <- <- <- <-. reflexivity.
    + cbn [modify]. match goal with |- context [display E ?z] => destruct (display E z) end; try discriminate.
      intro H. injection H as <- <- <- <-. reflexivity.
    + cbn [modify]. match goal with |- context [display E ?z] => destruct (display E z) end; try discriminate.
      intro H. injection H as <- <- <- <-. reflexivity.
Qed.

Lemma complete_with_sim : forall E d (x : K) s,
  (bad /\ exists p, complete_with C E ((d, x), s) = OPanic p) \/
  exists l, forget (complete_with C E ((d, x), s) : out ((D * K) * ed) unit) = lift (complete (answering E l)) (x, s).
Proof.
  intros E d x s. destruct (c_event C E BeforeComplete d s) as [[d1 s']|p] eqn:He.
  2:{ left. split; [intros [N _]; destruct (N E BeforeComplete d s) as [r Hr]; congruence|]. exists p.
      unfold complete_with, bind, send. rewrite He. reflexivity. }
  pose proof (HL _ _ _ _ _ _ He) as ->. destruct (ed_hint s) as [hh|] eqn:Eh.
  { right. exists []. unfold complete_with.
    assert (Es : send C E BeforeComplete (d, x, s) = ORet tt (d1, x, s)) by (unfold send; rewrite He; reflexivity).
    rewrite (bind_ret_eq _ _ _ _ _ Es), bind_gete, Eh. rewrite !lift_at, (shown_same E [] s hh Eh).
    destruct (complete (answering E []) s); reflexivity. }
  destruct (find_word E s s) as [word s1|e s1|p|] eqn:Ef;
    [|right; exists []; rewrite (complete_with_eq E d x s d1 He Eh), lift_at, (complete_eq E [] s Eh); unfold bind; rewrite lift_at, Ef; reflexivity ..].
  destruct (c_completions C word d1) as [[l d2]|p] eqn:Ea.
  - right. exists l. refine (proj1 (complete_with_at E d x s d1 word l d2 He Eh _ Ea)). intros w s2 H. congruence.
  - left. split; [intros [_ N]; destruct (N word d1) as [r Hr]; congruence|]. exists p.
    rewrite (complete_with_eq E d x s d1 He Eh). unfold bind, ask. rewrite lift_at, Ef, Ea. reflexivity.
Qed.

Definition is_tab (k : key) : bool := match k with KChar c => N.eqb c c_tab | _ => false end.

(** One key. *)
Lemma handle_key_sim : forall (core : env -> key -> MK K unit) E k d x s,
  (bad /\ exists p, handle_key_with C core E k ((d, x), s) = OPanic p) \/
  exists l, (is_tab k = false -> l = None) /\
    forget (handle_key_with C core E k ((d, x), s)) =
    handle_key core (match l with Some l => answering E l | None => E end) k (x, s).
Proof.
  intros core E k d x s. unfold handle_key_with. destruct (sim_send E (BeforeKey k) d x s) as [[Hb [p Hp]]|H].
  { left. split; [exact Hb|]. exists p. unfold bind at 1. rewrite Hp. reflexivity. }
  destruct (send C E (BeforeKey k) (d, x, s)) as [[] [[d1 x1] s1]|e1 [[d1 x1] s1]|p1|] eqn:Es; cbn [forget ret] in H; try discriminate H.
  injection H as -> ->. rewrite (bind_ret_eq _ _ _ _ _ Es), bind_gete. clear Es.
  assert (HO : forall k', sim (inner (core E k') ;;; mod_ed skip_completions_hint ;;; ret false)
     (core E k' ;;; mod_ed skip_completions_hint ;;; ret false)).
  { intro k'. apply sim_bind; [apply sim_inner|]. intro. apply sim_bind; [apply sim_mod|]. intro. apply sim_ret. }
  destruct (is_tab k) eqn:Et.
  { destruct k as [c| | | | | | | | | | | | |]; try discriminate Et. cbn [is_tab] in Et. cbv zeta. rewrite Et.
    destruct (cur_buf s) as [b|p] eqn:Eb.
    2:{ right. exists (Some []). split; [discriminate|]. unfold handle_key. rewrite bind_gete, Eb. reflexivity. }
    assert (HA : sim (send C E (AfterKey (KChar c)) ;;; (if e_wok E then ret false else fail EOther))
                     (ret tt ;;; (if e_wok E then ret false else fail EOther))).
    { apply sim_bind; [apply sim_send|]. intro. destruct (e_wok E); [apply sim_ret|apply sim_fail]. }
    assert (HK : forall l, handle_key core (answering E l) (KChar c) (x, s) =
      (lift (complete (answering E l)) ;;; (if e_wok E then ret false else fail EOther)) (x, s)).
    { intro l. unfold handle_key. rewrite bind_gete, Eb. cbv zeta. rewrite Et. unfold bind. rewrite !lift_at.
      destruct (complete (answering E l) s); reflexivity. }
    match goal with |- context [bind (fun st => ORet (buf_is_empty b) st) ?k (d1, x, s)] =>
      change (bind (fun st => ORet (buf_is_empty b) st) k (d1, x, s)) with (k (buf_is_empty b) (d1, x, s)) end.
    cbv beta. destruct (complete_with_sim E d1 x s) as [[Hb [p Hp]]|[l Hl]].
    { left. split; [exact Hb|]. exists p. unfold bind. rewrite Hp. reflexivity. }
    destruct (complete_with C E (d1, x, s)) as [[] [[d2 x2] s2]|e2 [[d2 x2] s2]|p2|] eqn:Ec; cbn [forget] in Hl.
    - destruct (HA d2 x2 s2) as [[Hb [p Hp]]|H].
      + left. split; [exact Hb|]. exists p. unfold bind at 1 2. rewrite Ec. exact Hp.
      + right. exists (Some l). split; [discriminate|]. rewrite HK. rewrite (bind_ret_eq _ _ _ _ _ (eq_sym Hl)).
        unfold bind at 1 2. rewrite Ec. exact H.
    - right. exists (Some l). split; [discriminate|]. rewrite HK. unfold bind. rewrite <- Hl, Ec. reflexivity.
    - right. exists (Some l). split; [discriminate|]. rewrite HK. unfold bind. rewrite <- Hl, Ec. reflexivity.
    - right. exists (Some l). split; [discriminate|]. rewrite HK. unfold bind. rewrite <- Hl, Ec. reflexivity. }
  assert (HS : sim
    (is_empty <- (fun st => match cur_buf s with Val b => ORet (buf_is_empty b) st | Pan p => OPanic p end) ;;
     let k := match k with KCtrl c => if is_char c "h" then KBackspace else k | _ => k end in
     let other := inner (core E k) ;;; mod_ed skip_completions_hint ;;; ret false in
     done <- (match k with
       | KCtrl c =>
         if is_char c "c" then lift (handle_newline E) ;;; fail EInterrupted
         else if is_char c "d" && is_empty then lift (handle_newline E) ;;; fail EUnexpectedEof
         else if is_char c "f" && showing_autosuggestion s then lift (accept_autosuggestion E) ;;; ret false
         else if is_char c "r" then lift (search E false) ;;; ret false
         else if is_char c "s" then lift (search E true) ;;; ret false
         else other
       | KChar c => if N.eqb c c_tab then complete_with C E ;;; ret false
                    else if N.eqb c c_nl then lift (handle_newline E) else other
       | KRight =>
         if showing_autosuggestion s then
           at_end <- (fun st => match cursor_is_at_end_of_line s with Val b => ORet b st | Pan p => OPanic p end) ;;
           if at_end : bool then lift (accept_autosuggestion E) ;;; ret false else other
         else other
       | _ => other
       end) ;;
     send C E (AfterKey k) ;;;
     (if e_wok E then ret done else fail EOther))
    (is_empty <- (fun st => match cur_buf s with Val b => ORet (buf_is_empty b) st | Pan p => OPanic p end) ;;
     let k := match k with KCtrl c => if is_char c "h" then KBackspace else k | _ => k end in
     let other := core E k ;;; mod_ed skip_completions_hint ;;; ret false in
     done <- (match k with
       | KCtrl c =>
         if is_char c "c" then lift (handle_newline E) ;;; fail EInterrupted
         else if is_char c "d" && is_empty then lift (handle_newline E) ;;; fail EUnexpectedEof
         else if is_char c "f" && showing_autosuggestion s then lift (accept_autosuggestion E) ;;; ret false
         else if is_char c "r" then lift (search E false) ;;; ret false
         else if is_char c "s" then lift (search E true) ;;; ret false
         else other
       | KChar c => if N.eqb c c_tab then lift (complete E) ;;; ret false
                    else if N.eqb c c_nl then lift (handle_newline E) else other
       | KRight =>
         if showing_autosuggestion s then
           at_end <- (fun st => match cursor_is_at_end_of_line s with Val b => ORet b st | Pan p => OPanic p end) ;;
           if at_end : bool then lift (accept_autosuggestion E) ;;; ret false else other
         else other
       | _ => other
       end) ;;
     ret tt ;;;
     (if e_wok E then ret done else fail EOther))).
  { apply sim_bind; [destruct (cur_buf s); intros d' x' s'; right; reflexivity|]. intro em. cbv zeta.
    set (k1 := match k with KCtrl c => if is_char c "h" then KBackspace else k | _ => k end).
    assert (Et1 : is_tab k1 = false) by (subst k1; destruct k as [c|c|c| | | | | | | | | | |]; try exact Et; destruct (is_char c "h"); reflexivity).
    apply sim_bind; [|intro done; apply sim_bind; [apply sim_send|intro; destruct (e_wok E); [apply sim_ret|apply sim_fail]]].
    assert (HT : forall m, sim (lift m ;;; ret false) (lift (A := unit) m ;;; ret false))
      by (intro m; apply sim_bind; [apply sim_lift|intro; apply sim_ret]).
    destruct k1 as [c|c|c| | | | | | | | | | |]; try apply HO.
    - cbn [is_tab] in Et1. rewrite Et1. destruct (N.eqb c c_nl); [apply sim_lift|apply HO].
    - destruct (is_char c "c"); [apply sim_bind; [apply sim_lift|intro; apply sim_fail]|].
      destruct (is_char c "d" && em); [apply sim_bind; [apply sim_lift|intro; apply sim_fail]|].
      destruct (is_char c "f" && showing_autosuggestion s); [apply HT|].
      destruct (is_char c "r"); [apply HT|]. destruct (is_char c "s"); [apply HT|apply HO].
    - destruct (showing_autosuggestion s); [|apply HO].
      apply sim_bind; [destruct (cursor_is_at_end_of_line s); intros d' x' s'; right; reflexivity|].
      intros [|]; [apply HT|apply HO]. }
  destruct (HS d1 x s) as [H|H]; [left; exact H|right]. exists None. split; [reflexivity|]. exact H.
Qed.

Lemma run_sim : forall (core : env -> key -> MK K unit) ks d x s,
  exists ks', Forall2 same_but_answers ks ks' /\
    ((bad /\ exists p, run_inputs C core (arrive ks) ((d, x), s) = OPanic p) \/
     forget (run_inputs C core (arrive ks) ((d, x), s)) = run_keys core ks' (x, s)).
Proof.
  assert (HR : forall ks, Forall2 same_but_answers ks ks).
  { induction ks; constructor; [repeat split|assumption]. }
  intros core ks. induction ks as [|[E k] ks IH]; intros d x s.
  { exists []. split; [constructor|]. right. reflexivity. }
  cbn [arrive map run_inputs]. destruct (handle_key_sim core E k d x s) as [[Hb [p Hp]]|[l [_ Hl]]].
  { exists ((E, k) :: ks). split; [apply HR|]. left. split; [exact Hb|]. exists p. unfold bind. rewrite Hp. reflexivity. }
  set (E' := match l with Some l => answering E l | None => E end) in *.
  assert (HE : same_but_answers (E, k) (E', k)) by (subst E'; destruct l; repeat split).
  unfold bind. destruct (handle_key_with C core E k (d, x, s)) as [dn [[d1 x1] s1]|e [[d1 x1] s1]|p|] eqn:Eh; cbn [forget] in Hl.
  - destruct dn.
    + exists ((E', k) :: ks). split; [constructor; [exact HE|apply HR]|]. right. cbn [run_keys]. unfold bind. rewrite <- Hl. reflexivity.
    + destruct (IH d1 x1 s1) as [ks' [H1 H2]]. exists ((E', k) :: ks'). split; [constructor; assumption|].
      destruct H2 as [H2|H2]; [left; exact H2|right]. cbn [run_keys]. unfold bind. rewrite <- Hl. exact H2.
  - exists ((E', k) :: ks). split; [constructor; [exact HE|apply HR]|]. right. cbn [run_keys]. unfold bind. rewrite <- Hl. reflexivity.
  - exists ((E', k) :: ks). split; [constructor; [exact HE|apply HR]|]. right. cbn [run_keys]. unfold bind. rewrite <- Hl. reflexivity.
  - exists ((E', k) :: ks). split; [constructor; [exact HE|apply HR]|]. right. cbn [run_keys]. unfold bind. rewrite <- Hl. reflexivity.
Qed.
End Sim.
