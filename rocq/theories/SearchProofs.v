(** Proofs about incremental search (C31). *)
From Verif Require Import Base Utf8 BufferModel UtilModel HistoryModel EditorState EditorModel
  KeymapModel MonadLemmas EditorLemmas CursorProofs Lemmas BufferSpec BufferProofs BufferGroups
  TextProofs HistorySpec HistoryProofs EditorSpec ErrorProofs EditorProofs SuggestProofs.
From Coq Require Import Sorting.Sorted Sorting.Permutation.
Local Open Scope monad_scope.

(** The state of a running search whose term is on the new line. *)
Record searching (s : ed) : Prop := mkSearching {
  se_on : is_search s = true;
  se_fresh : ed_changed s = false;
  se_hvalid : ed_hvalid s = false;
  se_loc : ed_loc s = None;
  se_subset : ed_subset s = search_index (ed_history s) (ed_new s);
  se_subloc : match ed_subloc s with
              | Some p => p < length (ed_subset s)
              | None => ed_subset s = []
              end;
  se_sugg : match search_history_loc s with
            | Some i => exists b, hist_get (ed_history s) i = Val b /\ ed_sugg s = Some b
            | None => ed_sugg s = None
            end
}.

Lemma refresh_loop_bound : forall f t idx i j, refresh_loop f t i idx = Some j -> j < i + length idx.
Proof.
  intros f t idx. induction idx as [|l idx IH]; intros i j H; cbn [refresh_loop] in H; [discriminate|].
  cbn [length]. destruct (t <=? l).
  - destruct (f || (t =? l) || (i =? 0)); injection H as <-; lia.
  - apply IH in H. lia.
Qed.

(** A redraw of a search that is up to date. *)
Lemma display_searching : forall E s u s', is_search s = true -> ed_changed s = false ->
  ed_hvalid s = false -> display E s = ORet u s' ->
  exists g c tcl cb tty, s' = shown s g c tcl cb tty /\
    match search_history_loc s with
    | Some i => exists b, hist_get (ed_history s) i = Val b /\ g = Some b
    | None => g = None
    end.
Proof.
  intros E s u s' Hs Hc Hv H. pose proof (display_out E s) as D. rewrite H in D.
  assert (Hr : refreshed s = s) by (unfold refreshed; rewrite Hc, andb_false_r; reflexivity).
  rewrite Hr in D. destruct D as [g [b [tcl [cb [tty [G [_ ->]]]]]]].
  eexists g, _, tcl, cb, tty. split; [reflexivity|].
  unfold current_autosuggestion in G. rewrite Hv, Hs in G.
  destruct (search_history_loc s) as [i|]; [|congruence].
  destruct (hist_get (ed_history s) i) as [x|] eqn:Ex; [|discriminate]. cbn [rbind] in G.
  injection G as <-. exists x. split; reflexivity.
Qed.

Lemma refresh_subloc : forall fwd s,
  let s' := refresh_search fwd s in
  match ed_subloc s' with Some p => p < length (ed_subset s') | None => ed_subset s' = [] end.
Proof.
  intros fwd s. unfold refresh_search. cbv zeta. edsimp.
  destruct (search_index (ed_history s) (ed_new s)) as [|x idx] eqn:Ei; [reflexivity|].
  destruct (search_history_loc s) as [t|].
  - destruct (refresh_loop fwd t 0 (x :: idx)) as [i|] eqn:Er.
    + apply refresh_loop_bound in Er. exact Er.
    + destruct fwd; cbn [length]; lia.
  - destruct fwd; cbn [length]; lia.
Qed.

Lemma refresh_is_search : forall f s, is_search (refresh_search f s) = true.
Proof. intros [|] s; reflexivity. Qed.

Lemma searching_shown : forall s g c tcl cb tty, is_search s = true -> ed_changed s = false ->
  ed_hvalid s = false -> ed_loc s = None ->
  ed_subset s = search_index (ed_history s) (ed_new s) ->
  match ed_subloc s with Some p => p < length (ed_subset s) | None => ed_subset s = [] end ->
  match search_history_loc s with
  | Some i => exists b, hist_get (ed_history s) i = Val b /\ g = Some b
  | None => g = None
  end -> searching (shown s g c tcl cb tty).
Proof. intros. constructor; assumption. Qed.

(** Starting a search. *)
Lemma search_start : forall E fwd s u s', is_search s = false -> search E fwd s = ORet u s' ->
  searching s' /\ ed_new s' = ed_new s /\ ed_history s' = ed_history (freshen_history s) /\
  ed_fwd s' = fwd.
Proof.
  intros E fwd s u s' Hs H. unfold search, bind, modify in H. rewrite Hs in H. cbn [negb] in H.
  set (s1 := refresh_search fwd (freshen_history s)) in *.
  assert (K : forall A (f : ed -> A), f (set_history (ed_history (freshen_history s)) (set_fresh (ed_fresh (freshen_history s)) s)) = f (freshen_history s)).
  { intros A f. f_equal. unfold freshen_history. destruct (h_share (ed_history s) && negb (ed_fresh s)); destruct s; reflexivity. }
  assert (Hf : ed_new s1 = ed_new s /\ ed_history s1 = ed_history (freshen_history s)).
  { unfold s1, refresh_search. cbv zeta. edsimp. split; [|reflexivity]. rewrite <- (K _ ed_new). reflexivity. }
  destruct Hf as [Hn Hh].
  destruct (display_searching E s1 u s' (refresh_is_search _ _) eq_refl eq_refl H)
    as [g [c [tcl [cb [tty [-> G]]]]]].
  split; [|split; [exact Hn|split; [exact Hh|reflexivity]]].
  apply searching_shown; try reflexivity; [|apply (refresh_subloc fwd (freshen_history s))|exact G].
  apply refresh_is_search.
Qed.

(** Which entry a new search selects. *)
Lemma search_start_target : forall E fwd s u s', is_search s = false ->
  search_history_loc s = None -> search E fwd s = ORet u s' ->
  ed_subloc s' = match ed_subset s' with
                 | [] => None
                 | _ => if fwd then Some 0 else Some (length (ed_subset s') - 1)
                 end.
Proof.
  intros E fwd s u s' Hs Hl H. unfold search, bind, modify in H. rewrite Hs in H. cbn [negb] in H.
  set (s1 := refresh_search fwd (freshen_history s)) in *.
  assert (Hl1 : search_history_loc (freshen_history s) = None).
  { rewrite <- Hl. unfold freshen_history. destruct (_ && _); reflexivity. }
  destruct (display_searching E s1 u s' (refresh_is_search _ _) eq_refl eq_refl H)
    as [g [c [tcl [cb [tty [-> _]]]]]].
  unfold shown. edsimp. unfold s1, refresh_search. cbv zeta. edsimp. rewrite Hl1.
  destruct (search_index (ed_history (freshen_history s)) (ed_new (freshen_history s))); [reflexivity|].
  destruct fwd; reflexivity.
Qed.

(** What the selected entry is, for sorted matches. *)
Lemma sorted_last : forall l d i, StronglySorted lt l -> In i l -> i <= nth (length l - 1) l d.
Proof.
  induction l as [|x l IH]; intros d i Hs Hi; [destruct Hi|].
  inversion Hs as [|? ? Hs' Hf]; subst. destruct l as [|y l].
  - destruct Hi as [->|[]]. cbn. lia.
  - replace (nth (length (x :: y :: l) - 1) (x :: y :: l) d) with (nth (length (y :: l) - 1) (y :: l) d)
      by (cbn; rewrite Nat.sub_0_r; reflexivity).
    destruct Hi as [->|Hi]; [|apply IH; assumption].
    rewrite Forall_forall in Hf. assert (i < y) by (apply Hf; left; reflexivity).
    assert (y <= nth (length (y :: l) - 1) (y :: l) d) by (apply IH; [assumption|left; reflexivity]). lia.
Qed.
Lemma sorted_nth : forall l p q i j, StronglySorted lt l -> nth_error l p = Some i -> nth_error l q = Some j ->
  (p < q <-> i < j).
Proof.
  assert (G : forall l p q i j, StronglySorted lt l -> nth_error l p = Some i -> nth_error l q = Some j -> p < q -> i < j).
  { induction l as [|x l IH]; intros p q i j Hs Hp Hq Hpq; [destruct p; discriminate|].
    inversion Hs as [|? ? Hs' Hf]; subst. destruct q as [|q]; [lia|]. destruct p as [|p]; cbn in Hp, Hq.
    - injection Hp as <-. rewrite Forall_forall in Hf. apply Hf. apply nth_error_In in Hq. exact Hq.
    - apply (IH p q); auto. lia. }
  intros l p q i j Hs Hp Hq. split; [exact (G l p q i j Hs Hp Hq)|]. intro Hij.
  destruct (Nat.lt_trichotomy p q) as [?|[->|?]]; [assumption| |].
  - rewrite Hp in Hq. injection Hq as ->. lia.
  - pose proof (G l q p j i Hs Hq Hp ltac:(assumption)). lia.
Qed.

Lemma next_match_pos : forall l (fwd : bool) p i, StronglySorted lt l -> nth_error l p = Some i ->
  exists j, nth_error l (if fwd then (if p <? length l - 1 then p + 1 else 0)
                         else if 0 <? p then p - 1 else length l - 1) = Some j /\
    next_match (fun k => In k l) fwd i j.
Proof.
  intros l fwd p i Hs Hp.
  assert (Hlt : p < length l) by (apply nth_error_Some; congruence).
  set (q := if fwd then (if p <? length l - 1 then p + 1 else 0)
            else if 0 <? p then p - 1 else length l - 1).
  assert (Hq : q < length l).
  { unfold q. destruct fwd; [destruct (p <? length l - 1) eqn:E; [apply Nat.ltb_lt in E|]; lia|].
    destruct (0 <? p) eqn:E; [apply Nat.ltb_lt in E|]; lia. }
  destruct (nth_error l q) as [j|] eqn:Ej; [|apply nth_error_None in Ej; lia].
  exists j. split; [reflexivity|]. split; [apply nth_error_In in Ej; exact Ej|].
  unfold q in *. destruct fwd.
  - destruct (p <? length l - 1) eqn:E.
    + left. split; [apply (sorted_nth l p (p + 1) i j Hs Hp Ej); lia|]. intros k Hk Hik.
      apply In_nth_error in Hk as [r Hr]. pose proof (proj2 (sorted_nth l p r i k Hs Hp Hr) Hik).
      destruct (Nat.eq_dec r (p + 1)) as [->|]; [rewrite Ej in Hr; injection Hr as ->; lia|].
      assert (j < k) by (apply (sorted_nth l (p + 1) r j k Hs Ej Hr); lia). lia.
    + apply Nat.ltb_ge in E. right. split.
      * intros k Hk. apply In_nth_error in Hk as [r Hr].
        assert (r < length l) by (apply nth_error_Some; congruence).
        destruct (Nat.eq_dec r p) as [->|]; [rewrite Hp in Hr; injection Hr as ->; lia|].
        assert (k < i) by (apply (sorted_nth l r p k i Hs Hr Hp); lia). lia.
      * intros k Hk. apply In_nth_error in Hk as [r Hr]. destruct r as [|r]; [rewrite Ej in Hr; injection Hr as ->; lia|].
        assert (j < k) by (apply (sorted_nth l 0 (S r) j k Hs Ej Hr); lia). lia.
  - destruct (0 <? p) eqn:E.
    + apply Nat.ltb_lt in E. left. split; [apply (sorted_nth l (p - 1) p j i Hs Ej Hp); lia|]. intros k Hk Hik.
      apply In_nth_error in Hk as [r Hr]. pose proof (proj2 (sorted_nth l r p k i Hs Hr Hp) Hik).
      destruct (Nat.eq_dec r (p - 1)) as [->|]; [rewrite Ej in Hr; injection Hr as ->; lia|].
      assert (k < j) by (apply (sorted_nth l r (p - 1) k j Hs Hr Ej); lia). lia.
    + apply Nat.ltb_ge in E. right. split.
      * intros k Hk. apply In_nth_error in Hk as [r Hr].
        destruct (Nat.eq_dec r p) as [->|]; [rewrite Hp in Hr; injection Hr as ->; lia|].
        assert (i < k) by (apply (sorted_nth l p r); auto; lia). lia.
      * intros k Hk. apply In_nth_error in Hk as [r Hr].
        assert (r < length l) by (apply nth_error_Some; congruence).
        destruct (Nat.eq_dec r (length l - 1)) as [->|]; [rewrite Ej in Hr; injection Hr as ->; lia|].
        assert (k < j) by (apply (sorted_nth l r (length l - 1) k j Hs Hr Ej); lia). lia.
Qed.

Lemma subset_matches : forall s i, searching s -> (In i (ed_subset s) <-> matches s i).
Proof.
  intros s i H. rewrite (se_subset s H), search_index_data.
  exact (proj2 (search_index_spec (ed_history s) (data (ed_new s))) i).
Qed.
Lemma subset_sorted : forall s, searching s -> StronglySorted lt (ed_subset s).
Proof.
  intros s H. rewrite (se_subset s H), search_index_data.
  exact (proj1 (search_index_spec (ed_history s) (data (ed_new s)))).
Qed.

Lemma selected_searching : forall s, searching s -> exists o, selected s o.
Proof.
  intros s H. pose proof (se_subloc s H) as Hl. pose proof (se_sugg s H) as Hg.
  exists (search_history_loc s). split; [reflexivity|].
  destruct (search_history_loc s) as [i|] eqn:Ei.
  - destruct Hg as [b [Hb Hg]]. exists b. split; [exact Hg|]. split; [apply hist_get_texts; exact Hb|].
    apply (subset_matches s i H). unfold search_history_loc in Ei. destruct (ed_subloc s); [|discriminate].
    apply nth_error_In in Ei. exact Ei.
  - split; [exact Hg|]. intros i Hi. apply (subset_matches s i H) in Hi. unfold search_history_loc in Ei.
    destruct (ed_subloc s) as [p|].
    + apply nth_error_None in Ei. lia.
    + rewrite Hl in Hi. destruct Hi.
Qed.

(** One more step. *)
Lemma search_step_out : forall E fwd s u s', searching s -> search E fwd s = ORet u s' ->
  searching s' /\ ed_new s' = ed_new s /\ ed_history s' = ed_history s /\ ed_subset s' = ed_subset s /\
  ed_subloc s' = match ed_subset s, ed_subloc s with
                 | [], o => o
                 | l, Some p => Some (if fwd then (if p <? length l - 1 then p + 1 else 0)
                                      else if 0 <? p then p - 1 else length l - 1)
                 | _, None => None
                 end.
Proof.
  intros E fwd s u s' H Hse. unfold search, bind, modify in Hse.
  rewrite (se_on s H) in Hse. cbn [negb] in Hse.
  assert (Hst : search_step fwd s = set_subloc (match ed_subset s, ed_subloc s with
                 | [], o => o
                 | l, Some p => Some (if fwd then (if p <? length l - 1 then p + 1 else 0)
                                      else if 0 <? p then p - 1 else length l - 1)
                 | _, None => None
                 end) s).
  { unfold search_step. destruct (ed_subset s) eqn:E1; [destruct s; reflexivity|].
    destruct (ed_subloc s); reflexivity. }
  rewrite Hst in Hse. match type of Hse with context [set_subloc ?x s] => set (o := x) in * end.
  assert (H1 : is_search (set_subloc o s) = true) by exact (se_on s H).
  assert (H2 : ed_changed (set_subloc o s) = false) by exact (se_fresh s H).
  assert (H3 : ed_hvalid (set_subloc o s) = false) by exact (se_hvalid s H).
  destruct (display_searching E _ u s' H1 H2 H3 Hse) as [g [c [tcl [cb [tty [-> G]]]]]].
  split; [|repeat split; reflexivity].
  apply searching_shown; auto.
  - exact (se_loc s H).
  - exact (se_subset s H).
  - edsimp. unfold o. pose proof (se_subloc s H) as Hl. destruct (ed_subset s) as [|x l] eqn:E1.
    + destruct (ed_subloc s); [exact Hl|reflexivity].
    + destruct (ed_subloc s) as [p|]; [|discriminate].
      destruct fwd; [destruct (p <? length (x :: l) - 1) eqn:Ep; [apply Nat.ltb_lt in Ep|]|
                     destruct (0 <? p) eqn:Ep; [apply Nat.ltb_lt in Ep|]]; cbn [length] in *; lia.
Qed.

Lemma search_step_next : forall E fwd s u s' i, searching s -> selected s (Some i) ->
  search E fwd s = ORet u s' ->
  searching s' /\ ed_new s' = ed_new s /\ ed_history s' = ed_history s /\
  exists j, selected s' (Some j) /\ next_match (matches s) fwd i j.
Proof.
  intros E fwd s u s' i H [Hi _] Hse.
  destruct (search_step_out E fwd s u s' H Hse) as [S1 [S2 [S3 [S4 S5]]]].
  split; [exact S1|]. split; [exact S2|]. split; [exact S3|].
  unfold search_history_loc in Hi. destruct (ed_subloc s) as [p|] eqn:Ep; [|discriminate].
  destruct (next_match_pos (ed_subset s) fwd p i (subset_sorted s H) Hi) as [j [J1 J2]].
  exists j. split.
  - destruct (selected_searching s' S1) as [o Ho]. destruct Ho as [O1 O2].
    assert (Hj : search_history_loc s' = Some j).
    { unfold search_history_loc. rewrite S4, S5. destruct (ed_subset s) as [|x l]; [destruct p; discriminate|]. exact J1. }
    rewrite Hj in O1. subst o. split; [exact Hj|exact O2].
  - destruct J2 as [K1 K2]. split; [apply (subset_matches s j H); exact K1|].
    assert (Q : forall k, In k (ed_subset s) <-> matches s k) by (intro k; apply subset_matches; exact H).
    destruct fwd; destruct K2 as [[A B]|[A B]]; [left|right|left|right]; split;
      try exact A; intros k Hk; apply Q in Hk; auto.
Qed.

(** A new search, when nothing was selected before. *)
Lemma search_start_selected : forall E fwd s u s', is_search s = false ->
  search_history_loc s = None -> search E fwd s = ORet u s' ->
  ed_new s' = ed_new s /\ searching s' /\ exists o, selected s' o /\
  match o with
  | Some i => if fwd then forall k, matches s' k -> i <= k else forall k, matches s' k -> k <= i
  | None => True
  end.
Proof.
  intros E fwd s u s' Hs Hl H. destruct (search_start E fwd s u s' Hs H) as [S1 [S2 _]].
  pose proof (search_start_target E fwd s u s' Hs Hl H) as T.
  split; [exact S2|]. split; [exact S1|]. destruct (selected_searching s' S1) as [o Ho]. exists o.
  split; [exact Ho|]. destruct o as [i|]; [|exact I]. destruct Ho as [Hi _].
  unfold search_history_loc in Hi. rewrite T in Hi.
  pose proof (subset_sorted s' S1) as Hso.
  destruct (ed_subset s') as [|x l] eqn:Es; [discriminate|]. rewrite <- Es in *.
  destruct fwd.
  - intros k Hk. apply (subset_matches s' k S1) in Hk. apply In_nth_error in Hk as [r Hr].
    destruct r as [|r]; [rewrite Hi in Hr; injection Hr as ->; lia|].
    assert (i < k) by (apply (sorted_nth _ 0 (S r) i k Hso Hi Hr); lia). lia.
  - intros k Hk. apply (subset_matches s' k S1) in Hk.
    pose proof (sorted_last _ i k Hso Hk) as L. apply (nth_error_nth _ _ i) in Hi. lia.
Qed.

Definition pos_after (fwd : bool) (n p j : nat) : nat :=
  if fwd then (p + j) mod n else (p + (n - 1) * j) mod n.

Lemma pos_step : forall (fwd : bool) n p, p < n ->
  (if fwd then (if p <? n - 1 then p + 1 else 0) else if 0 <? p then p - 1 else n - 1)
  = pos_after fwd n p 1.
Proof.
  intros fwd n p H. unfold pos_after. destruct fwd.
  - destruct (p <? n - 1) eqn:E; [apply Nat.ltb_lt in E; rewrite Nat.mod_small; lia|].
    apply Nat.ltb_ge in E. replace (p + 1) with n by lia. rewrite Nat.mod_same; lia.
  - rewrite Nat.mul_1_r. destruct (0 <? p) eqn:E.
    + apply Nat.ltb_lt in E. replace (p + (n - 1)) with (p - 1 + 1 * n) by lia.
      rewrite Nat.mod_add, Nat.mod_small; lia.
    + apply Nat.ltb_ge in E. rewrite Nat.mod_small; lia.
Qed.
Lemma pos_add : forall fwd n p a b, 0 < n -> pos_after fwd n (pos_after fwd n p a) b = pos_after fwd n p (a + b).
Proof.
  intros fwd n p a b H. unfold pos_after. destruct fwd.
  - rewrite Nat.add_mod_idemp_l by lia. f_equal. lia.
  - rewrite Nat.add_mod_idemp_l by lia. f_equal. nia.
Qed.
Lemma pos_inj : forall fwd n p a b, 1 <= a <= n -> 1 <= b <= n -> pos_after fwd n p a = pos_after fwd n p b -> a = b.
Proof.
  assert (G : forall fwd n p a b, 1 <= a <= n -> 1 <= b <= n -> a < b -> pos_after fwd n p a <> pos_after fwd n p b).
  { intros fwd n p a b Ha Hb Hab. replace b with (a + (b - a)) by lia. rewrite <- pos_add by lia.
    set (q := pos_after fwd n p a). assert (Hq : q < n) by (unfold q, pos_after; destruct fwd; apply Nat.mod_upper_bound; lia).
    set (d := b - a). assert (0 < d < n) by (unfold d; lia). clearbody q d. unfold pos_after. destruct fwd.
    - destruct (Nat.lt_ge_cases (q + d) n).
      + rewrite Nat.mod_small; lia.
      + replace (q + d) with (q + d - n + 1 * n) by lia. rewrite Nat.mod_add, Nat.mod_small; lia.
    - replace (q + (n - 1) * d) with (q + n - d + (d - 1) * n) by nia. rewrite Nat.mod_add by lia.
      destruct (Nat.lt_ge_cases (q + n - d) n).
      + rewrite Nat.mod_small; lia.
      + replace (q + n - d) with (q - d + 1 * n) by lia. rewrite Nat.mod_add, Nat.mod_small; lia. }
  intros fwd n p a b Ha Hb H. destruct (Nat.lt_trichotomy a b) as [K|[K|K]]; [|exact K|].
  - exfalso. apply (G fwd n p a b); auto.
  - exfalso. apply (G fwd n p b a); auto.
Qed.

Lemma chain_pos : forall E fwd l s p, searching s -> ed_subloc s = Some p -> ed_subset s <> [] ->
  chain E fwd s l ->
  forall j s', nth_error l j = Some s' -> searching s' /\ ed_subset s' = ed_subset s /\
    ed_new s' = ed_new s /\ ed_history s' = ed_history s /\
    ed_subloc s' = Some (pos_after fwd (length (ed_subset s)) p (S j)).
Proof.
  intros E fwd l. induction l as [|s1 l IH]; intros s p H Hp Hne Hc j s' Hj; [destruct j; discriminate|].
  inversion Hc as [|? ? u ? Hse Hc']; subst.
  destruct (search_step_out E fwd s u s1 H Hse) as [S1 [S2 [S3 [S4 S5]]]].
  pose proof (se_subloc s H) as Hl. rewrite Hp in Hl.
  assert (S5' : ed_subloc s1 = Some (pos_after fwd (length (ed_subset s)) p 1)).
  { rewrite S5, Hp. destruct (ed_subset s) as [|x l0] eqn:Ex; [congruence|]. rewrite <- pos_step by exact Hl. reflexivity. }
  destruct j as [|j]; cbn in Hj.
  - injection Hj as <-. auto 6.
  - assert (Hne1 : ed_subset s1 <> []) by congruence.
    destruct (IH s1 _ S1 S5' Hne1 Hc' j s' Hj) as [I1 [I2 [I3 [I4 I5]]]].
    split; [exact I1|]. split; [congruence|]. split; [congruence|]. split; [congruence|].
    rewrite I5, S4, pos_add by lia. reflexivity.
Qed.

(** As many steps as there are matches select each match once. *)
Lemma chain_all : forall E fwd s l, searching s -> chain E fwd s l -> length l = length (ed_subset s) ->
  Permutation (map search_history_loc l) (map Some (ed_subset s)).
Proof.
  intros E fwd s l H Hc Hlen. pose proof (se_subloc s H) as Hl.
  destruct (ed_subset s) as [|x sub] eqn:Es.
  { destruct l; [constructor|discriminate]. }
  rewrite <- Es in *. assert (Hne : ed_subset s <> []) by (rewrite Es; discriminate).
  destruct (ed_subloc s) as [p|] eqn:Ep; [|congruence]. clear Es.
  pose proof (chain_pos E fwd l s p H Ep Hne Hc) as P.
  set (n := length (ed_subset s)) in *.
  assert (Hn : 0 < n) by lia.
  assert (Hpos : forall j, pos_after fwd n p j < n).
  { intro j. unfold pos_after. destruct fwd; apply Nat.mod_upper_bound; lia. }
  assert (Hmap : map search_history_loc l =
                 map (fun j => nth_error (ed_subset s) (pos_after fwd n p j)) (seq 1 n)).
  { apply nth_ext with (d := None) (d' := None); rewrite !map_length, ?seq_length; [exact Hlen|].
    intros j Hj. destruct (nth_error l j) as [s'|] eqn:Ej; [|apply nth_error_None in Ej; lia].
    destruct (P j s' Ej) as [_ [P2 [_ [_ P5]]]].
    assert (A1 : nth_error (map search_history_loc l) j = Some (search_history_loc s')).
    { rewrite nth_error_map, Ej. reflexivity. }
    rewrite (nth_error_nth _ _ None A1). unfold search_history_loc. rewrite P5, P2. symmetry.
    apply nth_error_nth. rewrite nth_error_map.
    assert (A2 : nth_error (seq 1 n) j = Some (S j)).
    { rewrite (nth_error_nth' _ 0) by (rewrite seq_length; lia). rewrite seq_nth by lia. reflexivity. }
    rewrite A2. reflexivity. }
  rewrite Hmap.
  assert (Hperm : Permutation (map (pos_after fwd n p) (seq 1 n)) (seq 0 n)).
  { apply NoDup_Permutation_bis.
    - assert (ND : forall m, incl m (seq 1 n) -> NoDup m -> NoDup (map (pos_after fwd n p) m)).
      { induction m as [|a m IHm]; intros Hi Hd; [constructor|]. inversion Hd; subst. cbn. constructor.
        - intro K. apply in_map_iff in K as [b [K1 K2]].
          assert (a = b).
          { assert (In a (seq 1 n)) by (apply Hi; left; reflexivity).
            assert (In b (seq 1 n)) by (apply Hi; right; exact K2).
            rewrite in_seq in *. apply (pos_inj fwd n p); [lia|lia|congruence]. }
          subst b. contradiction.
        - apply IHm; [|assumption]. intros y Hy. apply Hi. right. exact Hy. }
      apply ND; [intros y Hy; exact Hy|apply seq_NoDup].
    - rewrite map_length, !seq_length. lia.
    - intros y Hy. apply in_map_iff in Hy as [j [<- _]]. apply in_seq. pose proof (Hpos j). lia. }
  rewrite <- (map_map (pos_after fwd n p) (fun q => nth_error (ed_subset s) q)).
  rewrite (Permutation_map _ Hperm).
  assert (Heq : map (fun q => nth_error (ed_subset s) q) (seq 0 n) = map Some (ed_subset s)).
  { unfold n. generalize (ed_subset s). intro q. induction q as [|y q IHq]; [reflexivity|].
    cbn [length seq map]. rewrite <- seq_shift, map_map. cbn [nth_error]. rewrite IHq. reflexivity. }
  rewrite Heq. reflexivity.
Qed.

(** * Enter ends the search with the selected entry *)

Lemma accept_search_out : forall E s u s' b g, is_search s = true -> ed_showauto s = true ->
  cur_buf s = Val b -> ed_sugg s = Some g -> accept_autosuggestion E s = ORet u s' ->
  exists b', cur_buf s' = Val b' /\ data b' = data g /\
    ed_cursor s' = clamp_cursor (ed_noeol s) (length (data g)) (length (data g)) /\
    is_search s' = false /\ ed_hint s' = ed_hint s /\ ed_fresh s' = ed_fresh s /\
    ed_loc s' = ed_loc s /\
    exists b1 b2, buf_undo b' = Val (true, b1) /\ data b1 = [] /\
      buf_undo b1 = Val (true, b2) /\ data b2 = data b.
Proof.
  intros E s u s' b g Hs Ha Hb Hg H. unfold accept_autosuggestion in H. rewrite bind_get in H.
  apply bind_inv in H as [u0 [s0 [H0 H]]]. rewrite bind_modify in H.
  rewrite Ha in H0. cbn [when] in H0. rewrite (with_cur_mut_eq _ _ _ Hb), Hg, Hs in H0.
  unfold unit_op in H0. rewrite copy_buffer_eq in H0. cbn [rbind] in H0.
  set (bo := opened s b) in *. set (b' := copied bo (data g)) in *. injection H0 as _ <-.
  assert (Hc : cur_buf (clear_search (store b' s)) = Val b') by (rewrite cur_buf_clear; apply cur_store).
  assert (Hcs : is_search (clear_search (store b' s)) = false) by reflexivity.
  destruct (move_end_out E _ _ _ _ Hcs Hc H) as [g' [tcl [cb [tty ->]]]].
  exists b'. split; [rewrite cur_buf_shown; exact Hc|]. split; [reflexivity|].
  split; [unfold shown, clear_search; edsimp; rewrite store_noeol; reflexivity|]. split; [reflexivity|].
  split; [unfold shown, clear_search; edsimp; apply store_hint|]. split; [unfold shown, clear_search, store; edsimp; destruct (ed_loc s); reflexivity|].
  split; [unfold shown, clear_search; edsimp; apply store_loc|].
  destruct (undo_edit (mkBuf [] (ARemove 0 (data bo) :: actions bo) []) (EInsert 0 (data g)) b') as [b1 [U1 [U2 U3]]].
  - cbn. lia.
  - cbn [run_edit]. set (b0 := mkBuf [] _ _). pose proof (insert_app b0 [] [] (data g) eq_refl) as Hi.
    cbn [length app] in Hi. rewrite Hi. unfold b', copied. rewrite app_nil_r. reflexivity.
  - cbn [data actions] in U2, U3. unfold buf_undo. exists b1.
    exists (mkBuf (data bo) (actions bo) (ARemove 0 (data bo) :: undone b1)).
    split; [exact U1|]. split; [exact U2|]. rewrite U3. cbn [undo_loop act_undo]. rewrite U2.
    pose proof (insert_raw_app [] (data bo) []) as R. cbn [length app] in R. rewrite app_nil_r in R.
    rewrite R. cbn [rbind]. rewrite Z.eqb_refl. cbn [andb Nat.ltb Nat.leb rbind nonempty].
    split; [reflexivity|]. cbn. apply data_opened.
Qed.

Lemma enter_search : forall E s b g d s', is_search s = true -> ed_showauto s = true ->
  cur_buf s = Val b -> ed_sugg s = Some g -> handle_newline E s = ORet d s' ->
  (d = true <-> ed_hint s = None /\
     ~ after_backslash (data g) (clamp_cursor (ed_noeol s) (length (data g)) (length (data g)))) /\
  (d = true -> ed_result s' = Val (data g)).
Proof.
  intros E s b g d s' Hs Ha Hb Hg H.
  destruct (accept_autosuggestion E (set_fresh false s)) as [u s1| | |] eqn:Eacc;
    try (unfold handle_newline, bind, modify, get in H;
         change (is_search (set_fresh false s)) with (is_search s) in H; rewrite Hs in H; cbn [when] in H;
         rewrite Eacc in H; discriminate).
  destruct (accept_search_out E (set_fresh false s) u s1 b g Hs Ha Hb Hg Eacc)
    as [b' [A1 [A2 [A3 [A4 [A5 [A6 [A7 _]]]]]]]].
  assert (Heq : handle_newline E s = handle_newline E s1).
  { assert (Hfr : set_fresh false s1 = s1).
    { change (ed_fresh (set_fresh false s)) with false in A6. destruct s1; cbn in *. subst. reflexivity. }
    unfold handle_newline.
    match goal with |- context [bind (modify clear_search) ?f] => set (rest := bind (modify clear_search) f) end.
    clearbody rest. unfold bind, modify, get.
    change (is_search (set_fresh false s)) with (is_search s). rewrite Hs, Hfr, A4. cbn [when].
    rewrite Eacc. reflexivity. }
  rewrite Heq in H. destruct (newline_out E s1 b' d s' A4 A1 H) as [N1 [N2 _]].
  rewrite A2, A3, A5 in N1. rewrite A2 in N2. split; [exact N1|exact N2].
Qed.

(** From the start of a search: the whole tour. *)
Lemma search_tour : forall E fwd s u s1 l ms, is_search s = false -> search E fwd s = ORet u s1 ->
  NoDup ms -> (forall i, In i ms <-> matches s1 i) -> chain E fwd s1 l -> length l = length ms ->
  Permutation (map search_history_loc l) (map Some ms) /\
  forall s', In s' l -> ed_new s' = ed_new s /\ ed_history s' = ed_history s1 /\
    exists i, In i ms /\ selected s' (Some i).
Proof.
  intros E fwd s u s1 l ms Hs H Hnd Hms Hc Hlen.
  destruct (search_start E fwd s u s1 Hs H) as [S1 [S2 _]].
  assert (Hp : Permutation ms (ed_subset s1)).
  { apply NoDup_Permutation; [exact Hnd| |].
    - pose proof (subset_sorted s1 S1) as Hso. revert Hso. generalize (ed_subset s1). intros q Hso.
      induction Hso as [|x q Hq IH Hf]; constructor; [|exact IH].
      intro Hi. rewrite Forall_forall in Hf. specialize (Hf x Hi). lia.
    - intro i. rewrite Hms. symmetry. apply subset_matches. exact S1. }
  assert (Hl : length l = length (ed_subset s1)) by (rewrite Hlen; apply Permutation_length; exact Hp).
  pose proof (chain_all E fwd s1 l S1 Hc Hl) as A.
  assert (A' : Permutation (map search_history_loc l) (map Some ms))
    by (rewrite A; apply Permutation_map; symmetry; exact Hp).
  split; [exact A'|]. intros s' Hi.
  assert (Ho : exists i, In i ms /\ search_history_loc s' = Some i).
  { assert (K : In (search_history_loc s') (map Some ms))
      by (apply (Permutation_in _ A'); apply in_map; exact Hi).
    apply in_map_iff in K as [i [K1 K2]]. exists i. split; [exact K2|congruence]. }
  apply In_nth_error in Hi as [j Hj].
  pose proof (se_subloc s1 S1) as Hsl.
  assert (Hne : ed_subset s1 <> []).
  { intro K. rewrite K in Hl. destruct l; [destruct j; discriminate|discriminate]. }
  destruct (ed_subloc s1) as [p|] eqn:Ep; [|congruence].
  destruct (chain_pos E fwd l s1 p S1 Ep Hne Hc j s' Hj) as [P1 [_ [P3 [P4 _]]]].
  split; [congruence|]. split; [exact P4|]. destruct Ho as [i [Hi1 Hi2]]. exists i. split; [exact Hi1|].
  destruct (selected_searching s' P1) as [o [O1 O2]]. rewrite Hi2 in O1. subst o. split; assumption.
Qed.
