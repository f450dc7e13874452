(** Sessions with a completer that gets events: the session, its events, and
    the completer of the example programs. *)
From Verif Require Import Base Utf8 BufferModel UtilModel HistoryModel EditorState EditorModel KeymapModel ViModel
  CompleteModel ReplModel EventModel EventSpec MonadLemmas EventProofs UtilSpec UtilProofs EditorSpec EditorOps TabSpec TabProofs
  EditorProofs SessionProofs.
Local Open Scope monad_scope.

Lemma session_same : forall D K (C : completer D) (core : env -> key -> MK K unit) ks d x s, only_looks C ->
  no_panic C \/ (forall p, run_inputs C core (arrive ks) ((d, x), s) <> OPanic p) ->
  exists ks', Forall2 same_but_answers ks ks' /\
    run_keys core ks' (x, s) = forget (run_inputs C core (arrive ks) ((d, x), s)).
Proof.
  intros D K C core ks d x s HL HN. destruct (run_sim C HL core ks d x s) as [ks' [H1 H2]]. exists ks'. split; [exact H1|].
  destruct H2 as [[Hb [p Hp]]|H2]; [|symmetry; exact H2]. destruct HN as [HN|HN]; [destruct (Hb HN)|destruct (HN p Hp)].
Qed.

Lemma line_same : forall D K (C : completer D) (core : env -> key -> MK K unit) k0 init E p f ib h w cb ttys ks d, only_looks C ->
  no_panic C \/ (forall q, read_line_with C core k0 init E p f ib h w cb ttys (arrive ks) d <> OPanic q) ->
  exists ks', Forall2 same_but_answers ks ks' /\
    read_line core k0 init E p f ib h w cb ttys ks' =
    forget (read_line_with C core k0 init E p f ib h w cb ttys (arrive ks) d).
Proof.
  assert (HR : forall ks, Forall2 same_but_answers ks ks) by (induction ks; constructor; [repeat split|assumption]).
  intros D K C core k0 init E p f ib h w cb ttys ks d HL HN. unfold read_line, read_line_with in *.
  destruct (editor_new E p f ib h w cb ttys) as [[] s|e s|q|]; try (exists ks; split; [apply HR|reflexivity]).
  unfold bind in *. unfold inner in *.
  destruct (init E (k0, s)) as [[] [x1 s1]|e [x1 s1]|q|]; try (exists ks; split; [apply HR|reflexivity]).
  assert (HN' : no_panic C \/ forall q, run_inputs C core (arrive ks) (d, x1, s1) <> OPanic q).
  { destruct HN as [HN|HN]; [left; exact HN|right]. intros q Hq. specialize (HN q). rewrite Hq in HN. apply HN. reflexivity. }
  destruct (session_same D K C core ks d x1 s1 HL HN') as [ks' [H1 H2]]. exists ks'. split; [exact H1|]. rewrite H2.
  destruct (run_inputs C core (arrive ks) (d, x1, s1)) as [b [[d2 x2] s2]|e [[d2 x2] s2]|q|]; try reflexivity.
  cbn [forget gete]. destruct (ed_result s2); reflexivity.
Qed.

Lemma read_error : forall D K (C : completer D) (core : env -> key -> MK K unit) ks E rest st,
  run_inputs C core (arrive ks ++ (E, None) :: rest) st =
  match run_inputs C core (arrive ks) st with
  | ORet false st' => OErr EOther st'
  | o => o
  end.
Proof.
  intros D K C core ks. induction ks as [|[E k] ks IH]; intros E' rest st; [reflexivity|].
  cbn [arrive map app run_inputs]. unfold bind. destruct (handle_key_with C core E k st) as [[|] st'|e st'|p|]; try reflexivity.
  apply IH.
Qed.

(** * Events *)

Section Notes.
Context {D K : Type}.
Variable C : completer D.
Notation N' := (noting C).

Definition notes {A} (m' : MK ((list event * D) * K) A) (m : MK (D * K) A) (ev : list event) : Prop := forall l d x s,
  match m' (((l, d), x), s) with
  | ORet a (((l', d'), x'), s') => l' = l ++ ev /\ m ((d, x), s) = ORet a ((d', x'), s')
  | OErr e (((l', d'), x'), s') => (exists e1 e2, ev = e1 ++ e2 /\ l' = l ++ e1) /\ m ((d, x), s) = OErr e ((d', x'), s')
  | OPanic p => m ((d, x), s) = OPanic p
  | OFuel => m ((d, x), s) = OFuel
  end.

Lemma notes_bind : forall {A B} (m' : MK ((list event * D) * K) A) m e1 (k' : A -> MK ((list event * D) * K) B) k e2,
  notes m' m e1 -> (forall a, notes (k' a) (k a) e2) -> notes (bind m' k') (bind m k) (e1 ++ e2).
Proof.
  intros A B m' m e1 k' k e2 H1 H2 l d x s. unfold bind. specialize (H1 l d x s).
  destruct (m' (l, d, x, s)) as [a [[[l1 d1] x1] s1]|e [[[l1 d1] x1] s1]|p|].
  - destruct H1 as [-> ->]. specialize (H2 a (l ++ e1) d1 x1 s1).
    destruct (k' a (l ++ e1, d1, x1, s1)) as [b [[[l2 d2] x2] s2]|e [[[l2 d2] x2] s2]|p|]; try exact H2.
    + destruct H2 as [-> ->]. rewrite app_assoc. auto.
    + destruct H2 as [[f1 [f2 [-> ->]]] ->]. split; [|reflexivity]. exists (e1 ++ f1), f2. rewrite !app_assoc. auto.
  - destruct H1 as [[f1 [f2 [-> ->]]] ->]. split; [|reflexivity]. exists f1, (f2 ++ e2). rewrite <- app_assoc. auto.
  - rewrite H1. reflexivity.
  - rewrite H1. reflexivity.
Qed.
Lemma notes_quiet : forall {A B} (m' : MK ((list event * D) * K) A) m (k' : A -> MK ((list event * D) * K) B) k e2,
  notes m' m [] -> (forall a, notes (k' a) (k a) e2) -> notes (bind m' k') (bind m k) e2.
Proof. intros A B m' m k' k e2 H1 H2. exact (notes_bind m' m [] k' k e2 H1 H2). Qed.
Lemma notes_ret : forall {A} (a : A), notes (ret a) (ret a) [].
Proof. intros A a l d x s. cbn [ret]. rewrite app_nil_r. auto. Qed.
Lemma notes_fail : forall {A} e ev, notes (fail e : MK _ A) (fail e) ev.
Proof. intros A e ev l d x s. cbn [fail]. split; [|reflexivity]. exists [], ev. rewrite app_nil_r. auto. Qed.
Lemma nil_pre : forall (l : list event), exists e1 e2 : list event, [] = e1 ++ e2 /\ l = l ++ e1.
Proof. intro l. exists [], []. split; [reflexivity|symmetry; apply app_nil_r]. Qed.
Lemma notes_lift : forall {A} (m : ME A), notes (lift m) (lift m) [].
Proof.
  intros A m l d x s. unfold lift. destruct (m s); auto; [rewrite app_nil_r; auto|]. split; [apply nil_pre|reflexivity].
Qed.
Lemma notes_inner : forall {A} (m : MK K A), notes (inner m) (inner m) [].
Proof.
  intros A m l d x s. unfold inner. destruct (m (x, s)) as [a [x' s']|e [x' s']|p|]; auto; [rewrite app_nil_r; auto|].
  split; [apply nil_pre|reflexivity].
Qed.
Lemma notes_gete : notes gete gete [].
Proof. intros l d x s. cbn [gete]. rewrite app_nil_r. auto. Qed.
Lemma notes_mod : forall f, notes (mod_ed f) (mod_ed f) [].
Proof. intros f l d x s. cbn [mod_ed]. rewrite app_nil_r. auto. Qed.
Lemma notes_liftr : forall {A} (r : res A), notes (liftr r) (liftr r) [].
Proof. intros A [a|p] l d x s; cbn [liftr ret]; [rewrite app_nil_r; auto|reflexivity]. Qed.
Lemma notes_res : forall {A B} (f : A -> B) (r : res A),
  notes (fun st => match r with Val b => ORet (f b) st | Pan p => OPanic p end) (fun st => match r with Val b => ORet (f b) st | Pan p => OPanic p end) [].
Proof. intros A B f [a|p] l d x s; [rewrite app_nil_r; auto|reflexivity]. Qed.
Lemma notes_send : forall E ev, notes (send N' E ev) (send C E ev) [ev].
Proof.
  intros E ev l d x s. unfold send. cbn [noting c_event]. destruct (c_event C E ev d s) as [[d' s']|p]; auto.
Qed.
Lemma notes_ask : forall w, notes (ask N' w) (ask C w) [].
Proof.
  intros w l d x s. unfold ask. cbn [noting c_completions]. destruct (c_completions C w d) as [[a d']|p]; [rewrite app_nil_r; auto|reflexivity].
Qed.

Lemma notes_complete : forall E, notes (complete_with N' E) (complete_with C E) [BeforeComplete].
Proof.
  intro E. unfold complete_with. apply (notes_bind _ _ [BeforeComplete] _ _ []); [apply notes_send|]. intro.
  apply notes_quiet; [apply notes_gete|]. intro s. destruct (ed_hint s); [apply notes_lift|].
  apply notes_quiet; [apply notes_liftr|]. intro wr. apply notes_quiet; [apply notes_lift|]. intro word.
  apply notes_quiet; [apply notes_ask|]. intro l. cbv zeta.
  assert (HS : forall A (m : ME A) (k' : MK ((list event * D) * K) unit) (k : MK (D * K) unit), notes k' k [] -> notes (lift m ;;; k') (lift m ;;; k) []).
  { intros A m k' k H. apply notes_quiet; [apply notes_lift|]. intro. exact H. }
  destruct (dedup_adj (sort_texts l)) as [|c1 [|c2 cs]]; [apply notes_lift|apply HS, HS, notes_lift|].
  destruct (find_longest_common_prefix (c1 :: c2 :: cs)) as [p|]; [destruct ((blen word <? blen p) && prefixb word p)|];
    apply HS, notes_lift.
Qed.

Definition later (k : key) : list event := tl (events_of k).

Lemma notes_key : forall (core : env -> key -> MK K unit) E k l d x s,
  match handle_key_with N' core E k (((l, d), x), s) with
  | ORet a (((l', d'), x'), s') => l' = l ++ events_of k /\ handle_key_with C core E k ((d, x), s) = ORet a ((d', x'), s')
  | OErr e (((l', d'), x'), s') => (exists e1 e2, later k = e1 ++ e2 /\ l' = l ++ BeforeKey k :: e1) /\
      handle_key_with C core E k ((d, x), s) = OErr e ((d', x'), s')
  | OPanic p => handle_key_with C core E k ((d, x), s) = OPanic p
  | OFuel => handle_key_with C core E k ((d, x), s) = OFuel
  end.
Proof.
  intros core E k l d x s. 
  assert (HH : events_of k = BeforeKey k :: later k).
  { unfold later, events_of. destruct k; try reflexivity; destruct (N.eqb _ _); reflexivity. }
  unfold handle_key_with. pose proof (notes_send E (BeforeKey k) l d x s) as H1.
  destruct (send N' E (BeforeKey k) (l, d, x, s)) as [[] [[[l1 d1] x1] s1]|e [[[l1 d1] x1] s1]|p|] eqn:Es.
  2:{ unfold send in Es. cbn [noting c_event] in Es. destruct (c_event C E (BeforeKey k) d s) as [[? ?]|]; discriminate. }
  2:{ unfold bind at 1. rewrite Es. unfold bind at 1. rewrite H1. reflexivity. }
  2:{ unfold bind at 1. rewrite Es. unfold bind at 1. rewrite H1. reflexivity. }
  destruct H1 as [-> H1]. rewrite (bind_ret_eq _ _ _ _ _ Es), (bind_ret_eq _ _ _ _ _ H1). clear Es H1.
  rewrite !bind_gete. rewrite HH.
  match goal with |- match ?m' _ with _ => _ end => match goal with |- context [?m (d1, x1, s1) = ORet _ _] =>
    assert (HN : notes m' m (later k)) end end.
  { apply notes_quiet; [apply notes_res|]. intro em. cbv zeta.
    set (k1 := match k with KCtrl c => if is_char c "h" then KBackspace else k | _ => k end).
    assert (HT : forall m, notes (lift m ;;; ret false) (lift (A := unit) m ;;; ret false) [])
      by (intro m; apply notes_quiet; [apply notes_lift|intro; apply notes_ret]).
    assert (HO : notes (inner (core E k1) ;;; mod_ed skip_completions_hint ;;; ret false)
                       (inner (core E k1) ;;; mod_ed skip_completions_hint ;;; ret false) []).
    { apply notes_quiet; [apply notes_inner|]. intro. apply notes_quiet; [apply notes_mod|]. intro. apply notes_ret. }
    assert (HA : forall done : bool, notes (send N' E (AfterKey k1) ;;; (if e_wok E then ret done else fail EOther))
       (send C E (AfterKey k1) ;;; (if e_wok E then ret done else fail EOther)) [AfterKey k1]).
    { intro done. apply (notes_bind _ _ [AfterKey k1] _ _ []); [apply notes_send|]. intro.
      destruct (e_wok E); [apply notes_ret|apply notes_fail]. }
    destruct (match k with KChar c => N.eqb c c_tab | _ => false end) eqn:Et.
    - destruct k as [c| | | | | | | | | | | | |]; try discriminate. unfold later, events_of. rewrite Et. cbn [tl]. subst k1. cbv iota in HA. cbv iota. rewrite Et.
      apply (notes_bind _ _ [BeforeComplete] _ _ [AfterKey (KChar c)]); [|exact HA].
      apply (notes_bind _ _ [BeforeComplete] _ _ []); [apply notes_complete|intro; apply notes_ret].
    - assert (Hl : later k = [AfterKey k1]).
      { unfold later, events_of. subst k1. destruct k; try reflexivity; [rewrite Et; reflexivity|].
        unfold is_char. destruct (N.eqb c (ch "h")); reflexivity. }
      rewrite Hl. apply notes_quiet; [|exact HA].
      destruct k1 as [c|c|c| | | | | | | | | | |] eqn:Ek; try exact HO.
      + assert (Ec : N.eqb c c_tab = false).
        { destruct k as [c'|c'|c'| | | | | | | | | | |]; subst k1; try discriminate Ek; [injection Ek as ->; exact Et|].
          destruct (is_char c' "h"); discriminate Ek. }
        rewrite Ec. destruct (N.eqb c c_nl); [apply notes_lift|exact HO].
      + destruct (is_char c "c"); [apply notes_quiet; [apply notes_lift|intro; apply notes_fail]|].
        destruct (is_char c "d" && em); [apply notes_quiet; [apply notes_lift|intro; apply notes_fail]|].
        destruct (is_char c "f" && showing_autosuggestion s1); [apply HT|].
        destruct (is_char c "r"); [apply HT|]. destruct (is_char c "s"); [apply HT|exact HO].
      + destruct (showing_autosuggestion s1); [|exact HO]. apply notes_quiet; [apply (notes_res (fun b => b))|].
        intros [|]; [apply HT|exact HO]. }
  specialize (HN (l ++ [BeforeKey k]) d1 x1 s1).
  match goal with |- match ?m with _ => _ end => destruct m as [a [[[l2 d2] x2] s2]|e [[[l2 d2] x2] s2]|p|] eqn:Em end; try exact HN.
  - destruct HN as [-> HN]. rewrite <- app_assoc. auto.
  - destruct HN as [[e1 [e2 [H1 ->]]] HN]. split; [|exact HN]. exists e1, e2. rewrite <- app_assoc. auto.
Qed.

Lemma done_enter : forall (core : env -> key -> MK K unit) E k st st', handle_key_with C core E k st = ORet true st' -> k = KChar c_nl.
Proof.
  intros core E k st st'. unfold handle_key_with.
  enough (HO : ok (handle_key_with C core E k) st (fun a _ => a = true -> k = KChar c_nl)).
  { intro H. exact (ok_of _ _ _ _ _ HO H eq_refl). }
  assert (Seq : forall {A B} (m : MK (D * K) A) (f : A -> MK (D * K) B) st Q, (forall a st', ok (f a) st' Q) -> ok (bind m f) st Q).
  { intros A B m f st0 Q H. unfold ok, bind. destruct (m st0) as [a st1| | |]; auto. exact (H a st1). }
  unfold handle_key_with. apply Seq. intros _ st1. apply Seq. intros s1 st2. apply Seq. intros em st3. cbv zeta.
  set (k1 := match k with KCtrl c => if is_char c "h" then KBackspace else k | _ => k end).
  assert (HF : forall (m : MK (D * K) bool) (Q : Prop) st, (forall st' st'', m st' = ORet true st'' -> Q) ->
     ok (bind m (fun done => send C E (AfterKey k1) ;;; (if e_wok E then ret done else fail EOther))) st (fun a _ => a = true -> Q)).
  { intros m Q st0 H. unfold ok, bind. destruct (m st0) as [a st4| | |] eqn:Em; auto.
    destruct (send C E (AfterKey k1) st4) as [u st5| | |]; auto. destruct (e_wok E); [|exact I]. cbn [ret]. intros ->.
    exact (H _ _ Em). }
  assert (HQ : forall {A B} (m : MK (D * K) A) (m2 : MK (D * K) B), (forall st' st'', (m ;;; m2 ;;; ret false) st' = ORet true st'' -> k = KChar c_nl)).
  { intros A B m m2 sa sb. unfold bind. destruct (m sa); try discriminate. destruct (m2 s); discriminate. }
  assert (HQ1 : forall {A} (m : MK (D * K) A), (forall st' st'', (m ;;; ret false) st' = ORet true st'' -> k = KChar c_nl)).
  { intros A m sa sb. unfold bind. destruct (m sa); discriminate. }
  assert (HQ2 : forall {A} (m : MK (D * K) A) e, (forall st' st'', (m ;;; fail e) st' = ORet true st'' -> k = KChar c_nl)).
  { intros A m e sa sb. unfold bind. destruct (m sa); discriminate. }
  apply HF. intros sa sb.
  destruct k1 as [c|c|c| | | | | | | | | | |] eqn:Ek; try apply HQ.
  - destruct (N.eqb c c_tab); [apply HQ1|]. destruct (N.eqb c c_nl) eqn:Ec; [|apply HQ]. intros _. apply N.eqb_eq in Ec. subst c.
    destruct k as [c'|c'|c'| | | | | | | | | | |]; subst k1; try discriminate Ek; [exact Ek|].
    destruct (is_char c' "h"); discriminate Ek.
  - destruct (is_char c "c"); [apply HQ2|]. destruct (is_char c "d" && em); [apply HQ2|].
    destruct (is_char c "f" && showing_autosuggestion s1); [apply HQ1|].
    destruct (is_char c "r"); [apply HQ1|]. destruct (is_char c "s"); [apply HQ1|apply HQ].
  - destruct (showing_autosuggestion s1); [|apply HQ]. unfold bind at 1. destruct (cursor_is_at_end_of_line s1) as [[|]|]; [apply HQ1|apply HQ|discriminate].
Qed.

Lemma session_events : forall (core : env -> key -> MK K unit) ks l d x s,
  match run_inputs N' core (arrive ks) (((l, d), x), s) with
  | ORet b (((l', d'), x'), s') =>
      (exists ks1 ks2, ks = ks1 ++ ks2 /\ l' = l ++ flat_map events_of (map snd ks1) /\
         (if b : bool then exists ks0 E, ks1 = ks0 ++ [(E, KChar c_nl)] else ks2 = [])) /\
      run_inputs C core (arrive ks) ((d, x), s) = ORet b ((d', x'), s')
  | OErr e (((l', d'), x'), s') =>
      (exists ks1 E k ks2 e1 e2, ks = ks1 ++ (E, k) :: ks2 /\ events_of k = BeforeKey k :: e1 ++ e2 /\
         l' = l ++ flat_map events_of (map snd ks1) ++ BeforeKey k :: e1) /\
      run_inputs C core (arrive ks) ((d, x), s) = OErr e ((d', x'), s')
  | OPanic p => run_inputs C core (arrive ks) ((d, x), s) = OPanic p
  | OFuel => run_inputs C core (arrive ks) ((d, x), s) = OFuel
  end.
Proof.
  intros core ks. induction ks as [|[E k] ks IH]; intros l d x s.
  { cbn. split; [|reflexivity]. exists [], []. cbn. rewrite app_nil_r. auto. }
  cbn [arrive map run_inputs]. unfold bind. pose proof (notes_key core E k l d x s) as H1.
  assert (HH : events_of k = BeforeKey k :: later k).
  { unfold later, events_of. destruct k; try reflexivity; destruct (N.eqb _ _); reflexivity. }
  destruct (handle_key_with N' core E k (l, d, x, s)) as [b [[[l1 d1] x1] s1]|e [[[l1 d1] x1] s1]|p|] eqn:Ek.
  - destruct H1 as [-> H1]. rewrite H1. destruct b.
    + cbn [ret]. split; [|reflexivity]. pose proof (done_enter core E k _ _ H1) as ->. exists [(E, KChar c_nl)], ks.
      split; [reflexivity|]. cbn [map flat_map snd]. rewrite app_nil_r. split; [reflexivity|]. exists [], E. reflexivity.
    + specialize (IH (l ++ events_of k) d1 x1 s1). fold (arrive ks).
      destruct (run_inputs N' core (arrive ks) (l ++ events_of k, d1, x1, s1)) as [b [[[l2 d2] x2] s2]|e [[[l2 d2] x2] s2]|p|];
        try exact IH.
      * destruct IH as [[ks1 [ks2 [-> [-> H3]]]] H2]. split; [|exact H2]. exists ((E, k) :: ks1), ks2.
        split; [reflexivity|]. cbn [map flat_map snd]. rewrite app_assoc. split; [reflexivity|].
        destruct b; [|exact H3]. destruct H3 as [ks0 [E0 ->]]. exists ((E, k) :: ks0), E0. reflexivity.
      * destruct IH as [[ks1 [E1 [k1 [ks2 [e1 [e2 [-> [H3 ->]]]]]]]] H2]. split; [|exact H2].
        exists ((E, k) :: ks1), E1, k1, ks2, e1, e2. split; [reflexivity|]. split; [exact H3|].
        cbn [map flat_map snd]. rewrite <- !app_assoc. reflexivity.
  - destruct H1 as [[e1 [e2 [H2 ->]]] H1]. rewrite H1. split; [|reflexivity]. exists [], E, k, ks, e1, e2.
    split; [reflexivity|]. split; [rewrite HH, H2; reflexivity|]. reflexivity.
  - rewrite H1. reflexivity.
  - rewrite H1. reflexivity.
Qed.
End Notes.

(** * The completer of the example programs *)

Lemma comment_looks : forall rd lower cwd, only_looks (comment_completer rd lower cwd).
Proof.
  intros rd lower cwd E ev d s d' s' H. cbn [comment_completer c_event] in H. destruct ev; try (injection H as _ <-; reflexivity).
  destruct (get_words_and_cursor_position E s) as [[ws pos]|]; [|discriminate]. cbn [rbind] in H.
  destruct (wants_file_name pos); [destruct cwd; [|discriminate]|]; injection H as _ <-; reflexivity.
Qed.

Lemma loop_wants : forall c ws i pos, cpos_loop c (S i) ws = Val pos -> wants_file_name pos = true.
Proof.
  intros c ws. induction ws as [|[s e] ws IH]; intros i pos H; cbn [cpos_loop] in H.
  - injection H as <-. reflexivity.
  - destruct (s =? c); [injection H as <-; reflexivity|]. destruct (e =? c); [injection H as <-; reflexivity|].
    destruct ((s <? c) && (c <? e)); [injection H as <-; reflexivity|]. destruct (c <? s); [injection H as <-; reflexivity|].
    exact (IH _ _ H).
Qed.
Lemma wants_iff : forall ws c pos, increasing ws -> cpos_get c ws = Val pos -> (wants_file_name pos = true <-> past_first_word ws c).
Proof.
  intros ws c pos HI H. destruct ws as [|[s e] ws]; cbn [cpos_get past_first_word] in *.
  { injection H as <-. split; [discriminate|intros []]. }
  assert (Hse : s < e) by (inversion HI; assumption).
  destruct (c =? s) eqn:E1. { apply Nat.eqb_eq in E1. injection H as <-. cbn. split; [discriminate|lia]. }
  destruct (c <? s) eqn:E2. { apply Nat.ltb_lt in E2. injection H as <-. cbn. split; [discriminate|lia]. }
  apply Nat.eqb_neq in E1. apply Nat.ltb_ge in E2. cbn [cpos_loop] in H.
  destruct (s =? c) eqn:E3; [apply Nat.eqb_eq in E3; lia|].
  destruct (e =? c) eqn:E4. { apply Nat.eqb_eq in E4. injection H as <-. cbn. split; [discriminate|lia]. }
  apply Nat.eqb_neq in E4.
  destruct ((s <? c) && (c <? e)) eqn:E5.
  { apply andb_true_iff in E5 as [_ E5]. apply Nat.ltb_lt in E5. injection H as <-. cbn. split; [discriminate|lia]. }
  destruct (c <? s) eqn:E6; [apply Nat.ltb_lt in E6; lia|].
  split; [|intros _; exact (loop_wants _ _ _ _ H)]. intros _. apply andb_false_iff in E5. rewrite !Nat.ltb_ge in E5. lia.
Qed.

Lemma found_word : forall E s t c a part w r word s1, line_is s t c -> is_search s = false -> ed_noeol s = false -> ed_hint s = None ->
  increasing (e_words E t) -> at_word (e_words E t) t c a part w r -> find_word E s s = ORet word s1 -> word = w.
Proof.
  intros E s t c a part w r word s1 Hl Hs Hn Hh HI Hat H. pose proof Hat as [Ht [Hc _]]. subst t c.
  pose proof (tab_of_line s a part r Hl Hs Hn) as A. rewrite Hh in A.
  pose proof (tab_word E s _ a part w r text (fun w => ret w) (fun x _ => x = w) A eq_refl HI Hat) as T.
  refine (ok_of _ _ _ _ _ (T _) _); [intros; reflexivity|].
  unfold find_word in H. revert H. unfold bind. destruct (get_word_before_cursor E false s) as [o|]; [|discriminate]. cbn [liftr ret].
  intro H. rewrite H. reflexivity.
Qed.

(** Tab with the completer's answer known. *)
Lemma tab_with : forall D K (C : completer D) (core : env -> key -> MK K unit) E x s d d1 w l d2,
  (forall d s k, c_event C E (BeforeKey k) d s = Val (d, s) /\ c_event C E (AfterKey k) d s = Val (d, s)) ->
  c_event C E BeforeComplete d s = Val (d1, s) -> ed_hint s = None ->
  (forall word s1, find_word E s s = ORet word s1 -> word = w) -> c_completions C w d1 = Val (l, d2) ->
  forget (handle_key_with C core E (KChar c_tab) ((d, x), s)) = handle_key core (answering E l) (KChar c_tab) (x, s) /\
  (forall u d' x' s', handle_key_with C core E (KChar c_tab) ((d, x), s) = ORet u ((d', x'), s') -> d' = d2).
Proof.
  intros D K C core E x s d d1 w l d2 HK He Eh Hw Ha.
  destruct (complete_with_at C E d x s d1 w l d2 He Eh Hw Ha) as [H1 H2].
  unfold handle_key_with, handle_key.
  assert (Es : send C E (BeforeKey (KChar c_tab)) (d, x, s) = ORet tt (d, x, s)) by (unfold send; rewrite (proj1 (HK d s _)); reflexivity).
  rewrite (bind_ret_eq _ _ _ _ _ Es), !bind_gete. destruct (cur_buf s) as [b|p]; [|split; [reflexivity|discriminate]].
  cbv zeta. cbv iota. rewrite N.eqb_refl.
  match goal with |- forget (bind ?m0 ?k ?st) = bind ?n0 ?k' ?st' /\ _ => 
    change (bind m0 k st) with (k (buf_is_empty b) st); change (bind n0 k' st') with (k' (buf_is_empty b) st') end.
  cbv beta. unfold bind. rewrite lift_at in *. 
  destruct (complete_with C E (d, x, s)) as [[] [[d3 x3] s3]|e [[d3 x3] s3]|p|] eqn:Ec; cbn [forget] in H1;
    destruct (complete (answering E l) s) as [[] s4|e4 s4|p4|] eqn:Ec2; try discriminate H1.
  - injection H1 as -> ->. cbn [ret]. unfold send. rewrite (proj2 (HK d3 s4 _)). specialize (H2 _ _ _ _ eq_refl). subst d3.
    change (e_wok (answering E l)) with (e_wok E). destruct (e_wok E); cbn [ret fail forget].
    + split; [reflexivity|]. intros u d' x' s' H. injection H as <- <- <- <-. reflexivity.
    + split; [reflexivity|discriminate].
  - injection H1 as -> -> ->. split; [reflexivity|discriminate].
  - injection H1 as ->. split; [reflexivity|discriminate].
  - split; [reflexivity|discriminate].
Qed.

Lemma comment_keys : forall rd lower cwd E d s k,
  c_event (comment_completer rd lower cwd) E (BeforeKey k) d s = Val (d, s) /\
  c_event (comment_completer rd lower cwd) E (AfterKey k) d s = Val (d, s).
Proof. auto. Qed.

Lemma comment_complete : forall rd lower cwd E d s t c, line_is s t c -> increasing (e_words E t) ->
  (past_first_word (e_words E t) c -> forall dir, cwd = Some dir ->
     c_event (comment_completer rd lower cwd) E BeforeComplete d s = Val (Some dir, s)) /\
  (~ past_first_word (e_words E t) c -> c_event (comment_completer rd lower cwd) E BeforeComplete d s = Val (None, s)).
Proof.
  intros rd lower cwd E d s t c [b [Hb [Hd Hc]]] HI. cbn [comment_completer c_event].
  unfold get_words_and_cursor_position. rewrite Hb. cbn [rbind]. rewrite Hd, Hc.
  destruct (cpos_get_valid (e_words E t) c) as [pos [Hp _]]. rewrite Hp. cbn [rbind].
  pose proof (wants_iff _ _ _ HI Hp) as W. split.
  - intros Hpast dir ->. rewrite (proj2 W Hpast). reflexivity.
  - intro Hn. destruct (wants_file_name pos); [destruct (Hn (proj1 W eq_refl))|reflexivity].
Qed.

Lemma comment_file : forall K (core : env -> key -> MK K unit) rd lower dir E x s t c a part w r d l,
  line_is s t c -> is_search s = false -> ed_noeol s = false -> ed_hint s = None -> increasing (e_words E t) ->
  at_word (e_words E t) t c a part w r -> past_first_word (e_words E t) c ->
  filename_completions rd lower (Some dir) true w = Val l ->
  forget (handle_key_with (comment_completer rd lower (Some dir)) core E (KChar c_tab) ((d, x), s)) =
  handle_key core (answering E l) (KChar c_tab) (x, s).
Proof.
  intros K core rd lower dir E x s t c a part w r d l Hl Hs Hn Hh HI Hat Hp Hf.
  refine (proj1 (tab_with _ K (comment_completer rd lower (Some dir)) core E x s d (Some dir) w l (Some dir) _ _ Hh _ _)).
  - intros. apply comment_keys.
  - exact (proj1 (comment_complete rd lower (Some dir) E d s t c Hl HI) Hp dir eq_refl).
  - intros word s1 H. exact (found_word E s t c a part w r word s1 Hl Hs Hn Hh HI Hat H).
  - cbn [comment_completer c_completions]. rewrite Hf. reflexivity.
Qed.

Lemma comment_command : forall K (core : env -> key -> MK K unit) rd lower cwd E x s t c a part w r d o d' x' s',
  line_is s t c -> is_search s = false -> ed_noeol s = false -> ed_hint s = None -> increasing (e_words E t) ->
  at_word (e_words E t) t c a part w r -> ~ past_first_word (e_words E t) c ->
  handle_key_with (comment_completer rd lower cwd) core E (KChar c_tab) ((d, x), s) = ORet o ((d', x'), s') ->
  o = false /\ x' = x /\ line_is s' t c /\ ed_hint s' = None.
Proof.
  intros K core rd lower cwd E x s t c a part w r d o d' x' s' Hl Hs Hn Hh HI Hat Hp H.
  assert (HF : forget (handle_key_with (comment_completer rd lower cwd) core E (KChar c_tab) ((d, x), s)) =
    handle_key core (answering E []) (KChar c_tab) (x, s)).
  { refine (proj1 (tab_with _ K (comment_completer rd lower cwd) core E x s d None w [] None _ _ Hh _ _)).
    - intros. apply comment_keys.
    - exact (proj2 (comment_complete rd lower cwd E d s t c Hl HI) Hp).
    - intros word s1 H1. exact (found_word E s t c a part w r word s1 Hl Hs Hn Hh HI Hat H1).
    - reflexivity. }
  rewrite H in HF. cbn [forget] in HF. symmetry in HF. pose proof Hat as [Ht [Hc _]]. subst t c.
  pose proof (tab_of_line s a part r Hl Hs Hn) as A. rewrite Hh in A.
  pose proof (ok_of _ _ _ _ _ (ok_tab core (answering E []) x s _ (complete_none (answering E []) s _ a part w r A eq_refl HI Hat eq_refl)) HF)
    as [Hd [Hx A']]. cbn [fst snd] in Hx, A'.
  split; [exact Hd|]. split; [exact Hx|]. pose proof (proj2 A') as Hh'. apply tab_line in A'. rewrite <- app_assoc in A'. auto.
Qed.

Lemma comment_single : forall K (core : env -> key -> MK K unit) rd lower dir E x s t c a part w r d l z o d' x' s',
  line_is s t c -> is_search s = false -> ed_noeol s = false -> ed_hint s = None -> increasing (e_words E t) ->
  at_word (e_words E t) t c a part w r -> past_first_word (e_words E t) c ->
  filename_completions rd lower (Some dir) true w = Val l -> l <> [] -> (forall y, In y l -> y = z) ->
  handle_key_with (comment_completer rd lower (Some dir)) core E (KChar c_tab) ((d, x), s) = ORet o ((d', x'), s') ->
  o = false /\ x' = x /\ line_is s' (a ++ z ++ r) (length (a ++ z)).
Proof.
  intros K core rd lower dir E x s t c a part w r d l z o d' x' s' Hl Hs Hn Hh HI Hat Hp Hf Hne Hz H.
  pose proof (comment_file K core rd lower dir E x s t c a part w r d l Hl Hs Hn Hh HI Hat Hp Hf) as HF.
  rewrite H in HF. cbn [forget] in HF. symmetry in HF.
  exact (tab_single K core (answering E l) x s t c a part w r z o x' s' Hl Hs Hn Hh HI Hat Hne Hz HF).
Qed.
