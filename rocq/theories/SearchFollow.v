(** Proofs for C74: where a search goes when its term changes. *)
From Coq Require Import Sorted.
From Verif Require Import Base Utf8 BufferModel UtilModel HistoryModel BufferSpec BufferProofs HistorySpec HistoryProofs EditorState EditorModel
  KeymapModel ViModel MonadLemmas EditorLemmas EditorSpec CursorProofs EditorProofs SuggestProofs SuggestSession SearchProofs SearchSpec SearchSession.
Local Open Scope monad_scope.

Lemma loop_follows : forall fwd t idx pre, StronglySorted lt (pre ++ idx) -> (forall k, In k pre -> k < t) ->
  match refresh_loop fwd t (length pre) idx with
  | Some p => exists j, nth_error (pre ++ idx) p = Some j /\
      if fwd then t <= j /\ forall k, In k (pre ++ idx) -> t <= k -> j <= k
      else (j <= t /\ forall k, In k (pre ++ idx) -> k <= t -> k <= j) \/
           (forall k, In k (pre ++ idx) -> t < k /\ j <= k)
  | None => forall k, In k (pre ++ idx) -> k < t
  end.
Proof.
  intros fwd t idx. induction idx as [|l idx IH]; intros pre Hs Hp; cbn [refresh_loop].
  { rewrite app_nil_r. exact Hp. }
  assert (Hl : nth_error (pre ++ l :: idx) (length pre) = Some l).
  { rewrite nth_error_app2 by lia. rewrite Nat.sub_diag. reflexivity. }
  assert (Hg : forall k, In k (pre ++ l :: idx) -> In k pre \/ l <= k).
  { intros k Hk. apply in_app_or in Hk as [Hk|Hk]; [left; exact Hk|right].
    destruct (in_split _ _ Hk) as [a [b Hab]].
    assert (G : forall p q, StronglySorted lt (p ++ q) -> StronglySorted lt q).
    { intros p q. induction p as [|z p IHp]; intro G; [exact G|]. inversion G; subst. auto. }
    apply G in Hs. inversion Hs as [|? ? _ Hf]; subst. rewrite Forall_forall in Hf. destruct Hk as [->|Hk]; [lia|].
    apply Hf in Hk. lia. }
  destruct (t <=? l) eqn:Hle.
  - apply Nat.leb_le in Hle. destruct fwd.
    + cbn [orb]. exists l. split; [exact Hl|]. split; [exact Hle|]. intros k Hk Htk. destruct (Hg k Hk) as [Hi|Hi]; [|exact Hi].
      apply Hp in Hi. lia.
    + destruct (t =? l) eqn:Heq; cbn [orb].
      * apply Nat.eqb_eq in Heq. subst l. exists t. split; [exact Hl|]. left. split; [lia|]. intros k Hk Hkt. exact Hkt.
      * apply Nat.eqb_neq in Heq. destruct (length pre =? 0) eqn:H0.
        -- apply Nat.eqb_eq in H0. destruct pre; [|discriminate]. exists l. split; [reflexivity|]. right. intros k Hk.
           destruct (Hg k Hk) as [Hi|Hi]; [destruct Hi|]. lia.
        -- apply Nat.eqb_neq in H0. destruct (nth_error pre (length pre - 1)) as [j|] eqn:Hj;
             [|apply nth_error_None in Hj; lia].
           assert (Hj' : nth_error (pre ++ l :: idx) (length pre - 1) = Some j).
           { rewrite nth_error_app1 by lia. exact Hj. }
           exists j. split; [exact Hj'|]. left. pose proof (nth_error_In _ _ Hj) as Hin. split; [apply Hp in Hin; lia|].
           intros k Hk Hkt. destruct (Hg k Hk) as [Hi|Hi]; [|lia].
           apply In_nth_error in Hi as [q Hq]. assert (Hlt : q < length pre) by (apply nth_error_Some; congruence).
           assert (Hq' : nth_error (pre ++ l :: idx) q = Some k) by (rewrite nth_error_app1 by lia; exact Hq).
           destruct (Nat.eq_dec q (length pre - 1)) as [->|Hne]; [rewrite Hj in Hq; injection Hq as ->; lia|].
           assert (k < j) by (apply (sorted_nth _ q (length pre - 1) k j Hs Hq' Hj'); lia). lia.
  - apply Nat.leb_gt in Hle.
    replace (pre ++ l :: idx) with ((pre ++ [l]) ++ idx) in * by (rewrite <- app_assoc; reflexivity).
    replace (S (length pre)) with (length (pre ++ [l])) by (rewrite app_length; cbn; lia).
    apply IH; [exact Hs|]. intros k Hk. apply in_app_or in Hk as [Hk|[<-|[]]]; [apply Hp; exact Hk|exact Hle].
Qed.

Lemma refresh_matches : forall fwd s i, In i (ed_subset (refresh_search fwd s)) <-> matches (refresh_search fwd s) i.
Proof.
  intros fwd s i. unfold refresh_search, matches. edsimp. rewrite search_index_data.
  exact (proj2 (search_index_spec (ed_history s) (data (ed_new s))) i).
Qed.
Lemma refresh_sorted : forall fwd s, StronglySorted lt (ed_subset (refresh_search fwd s)).
Proof.
  intros fwd s. unfold refresh_search. edsimp. rewrite search_index_data.
  exact (proj1 (search_index_spec (ed_history s) (data (ed_new s)))).
Qed.
Lemma follows_in : forall (P Q : nat -> Prop) fwd o o', (forall k, P k <-> Q k) -> follows P fwd o o' -> follows Q fwd o o'.
Proof.
  intros P Q fwd o o' H F. destruct o' as [j|]; cbn [follows] in *.
  - destruct F as [F1 F2]. split; [apply H; exact F1|]. destruct o as [i|].
    + destruct fwd; (destruct F2 as [[A B]|B]; [left; split; [exact A|]|right]); intros k Hk; apply H in Hk; auto.
    + intros k Hk. apply F2, H, Hk.
  - intros j Hj. apply (F j), H, Hj.
Qed.
Lemma refresh_follows : forall fwd s,
  follows (matches (refresh_search fwd s)) fwd (search_history_loc s) (search_history_loc (refresh_search fwd s)).
Proof.
  intros fwd s. apply (follows_in _ _ _ _ _ (refresh_matches fwd s)). pose proof (refresh_sorted fwd s) as Hs.
  unfold refresh_search in *. revert Hs. generalize (search_history_loc s). intro o.
  generalize (search_index (ed_history s) (ed_new s)). intros idx Hs. unfold search_history_loc. edsimp. cbv zeta in Hs. edsimp. destruct idx as [|x idx]; [intros j []|].
  assert (HD : forall d, d = (if fwd then Some 0 else Some (length (x :: idx) - 1)) ->
    exists p j, d = Some p /\ nth_error (x :: idx) p = Some j /\ In j (x :: idx) /\
      forall k, In k (x :: idx) -> if fwd then j <= k else k <= j).
  { intros d ->. destruct fwd.
    - exists 0, x. split; [reflexivity|]. split; [reflexivity|]. split; [left; reflexivity|]. intros k Hk.
      inversion Hs as [|? ? _ Hf]; subst. rewrite Forall_forall in Hf. destruct Hk as [->|Hk]; [lia|apply Hf in Hk; lia].
    - exists (length (x :: idx) - 1), (nth (length (x :: idx) - 1) (x :: idx) 0). split; [reflexivity|].
      assert (Hb : length (x :: idx) - 1 < length (x :: idx)) by (cbn [length]; lia).
      split; [apply nth_error_nth'; exact Hb|]. split; [apply nth_In; exact Hb|].
      intros k Hk. apply sorted_last; assumption. }
  destruct o as [t|].
  - pose proof (loop_follows fwd t (x :: idx) [] Hs (fun k F => match F with end)) as L.
    cbn [app length] in L. destruct (refresh_loop fwd t 0 (x :: idx)) as [p|].
    + destruct L as [j [Hj L]]. cbv beta iota. rewrite Hj. cbn [follows]. split; [apply nth_error_In in Hj; exact Hj|].
      destruct fwd; [left; exact L|exact L].
    + destruct (HD _ eq_refl) as [p [j [-> [Hj [Hi Hk]]]]]. cbv beta iota. rewrite Hj. cbn [follows]. split; [exact Hi|].
      destruct fwd.
      * right. intros k Hin. split; [apply L; exact Hin|apply Hk; exact Hin].
      * left. split; [apply L in Hi; lia|]. intros k Hin _. apply Hk; exact Hin.
  - destruct (HD _ eq_refl) as [p [j [-> [Hj [Hi Hk]]]]]. cbv beta iota. rewrite Hj. cbn [follows]. split; [exact Hi|]. exact Hk.
Qed.

Lemma shown_follows : forall x g c tcl cb tty f o, follows (matches x) f o (search_history_loc x) ->
  follows (matches (shown x g c tcl cb tty)) f o (search_history_loc (shown x g c tcl cb tty)).
Proof. intros x g c tcl cb tty f o H. exact H. Qed.

(** The redraw after a change of the term. *)
Lemma display_follows : forall E s u s', is_search s = true -> ed_changed s = true -> ed_loc s = None -> display E s = ORet u s' ->
  is_search s' = true /\ ed_new s' = ed_new s /\ ed_history s' = ed_history s /\ ed_fwd s' = ed_fwd s /\ ed_loc s' = None /\
  ed_cursor s' = clamp_cursor (ed_noeol s) (num_chars (ed_new s)) (ed_cursor s) /\
  exists o, selected s' o /\ follows (matches s') (ed_fwd s) (search_history_loc s) o.
Proof.
  intros E s u s' Q C L D. pose proof (display_out E s) as H. rewrite D in H. destruct H as [g [b [tcl [cb [tty [G [B ->]]]]]]].
  assert (R : refreshed s = refresh_search (ed_fwd s) s) by (unfold refreshed; rewrite Q, C; reflexivity).
  assert (X : exact_ (shown (refreshed s) g (clamp_cursor (ed_noeol s) (num_chars b) (ed_cursor s)) tcl cb tty)).
  { apply shown_pending; [rewrite refreshed_search; exact Q|apply refreshed_listed| |exact G].
    - intros _. left. exact C.
    - exact Q.
    - rewrite R. reflexivity. }
  rewrite R in *. assert (B' : b = ed_new s) by (unfold refresh_search, cur_buf in B; cbn in B; congruence). subst b.
  assert (Q' : forall x g c tcl cb tty, is_search (shown x g c tcl cb tty) = is_search x) by reflexivity.
  assert (QR : is_search (refresh_search (ed_fwd s) s) = true) by apply refresh_is_search.
  split; [rewrite Q'; exact QR|]. split; [reflexivity|]. split; [reflexivity|]. split; [reflexivity|]. split; [reflexivity|].
  split; [reflexivity|]. eexists. split; [apply exact_selected; [exact X|rewrite Q'; exact QR]|].
  apply shown_follows. apply refresh_follows.
Qed.

(** * Typing *)
(** What the steps before the change leave alone. *)
Record term_is (s s' : ed) (a r : text) : Prop := mkTerm {
  te_search : is_search s' = true;
  te_loc : ed_loc s' = None;
  te_noeol : ed_noeol s' = false;
  te_data : data (ed_new s') = a ++ r;
  te_cursor : ed_cursor s' = length a;
  te_history : ed_history s' = ed_history s;
  te_fwd : ed_fwd s' = ed_fwd s;
  te_sel : search_history_loc s' = search_history_loc s }.

(** What the change comes to. *)
Definition moved_on (s s' : ed) (a r : text) : Prop :=
  is_search s' = true /\ ed_loc s' = None /\ ed_history s' = ed_history s /\ line_is s' (a ++ r) (length a) /\
  data (ed_new s') = a ++ r /\
  exists o, selected s' o /\ follows (matches s') (ed_fwd s) (search_history_loc s) o.

Lemma change_follows : forall E s s1 a r u s', term_is s s1 a r -> ed_changed s1 = true ->
  display E s1 = ORet u s' -> moved_on s s' a r.
Proof.
  intros E s s1 a r u s' T C D.
  destruct (display_follows E s1 u s' (te_search _ _ _ _ T) C (te_loc _ _ _ _ T) D) as [D1 [D2 [D3 [D4 [D5 [D6 [o [D7 D8]]]]]]]].
  split; [exact D1|]. split; [exact D5|]. split; [rewrite D3; apply (te_history _ _ _ _ T)|].
  assert (D2' : data (ed_new s') = a ++ r) by (rewrite D2; apply (te_data _ _ _ _ T)).
  split.
  { exists (ed_new s'). split; [unfold cur_buf; rewrite D5; reflexivity|]. split; [exact D2'|].
    rewrite D6, (te_noeol _ _ _ _ T), (te_cursor _ _ _ _ T). unfold clamp_cursor, num_chars.
    rewrite (te_data _ _ _ _ T), app_length. cbn [andb].
    destruct (length a + length r <? length a) eqn:F; [apply Nat.ltb_lt in F; lia|reflexivity]. }
  split; [exact D2'|]. exists o. split; [exact D7|]. rewrite (te_fwd _ _ _ _ T), (te_sel _ _ _ _ T) in D8. exact D8.
Qed.

Lemma insert_follows : forall E s s1 a r c u s', term_is s s1 a r ->
  insert_after_cursor E c s1 = ORet u s' -> moved_on s s' (a ++ [c]) r.
Proof.
  intros E s s1 a r c u s' T H. unfold insert_after_cursor, insert_chars_after_cursor, gets, bind at 1 in H.
  unfold bind at 1 in H.
  rewrite (with_cur_mut_eq _ s1 (ed_new s1)) in H by (unfold cur_buf; rewrite (te_loc _ _ _ _ T); reflexivity).
  unfold unit_op, opened in H. rewrite (te_loc _ _ _ _ T), (te_cursor _ _ _ _ T) in H.
  rewrite (insert_app _ a r [c] (te_data _ _ _ _ T)) in H. cbn [rbind] in H. unfold bind, modify in H.
  refine (change_follows E s _ (a ++ [c]) r u s' _ _ H); unfold store; rewrite (te_loc _ _ _ _ T); [|reflexivity].
  destruct T. constructor; edsimp; try assumption.
  - cbn [data]. rewrite <- app_assoc. reflexivity.
  - rewrite app_length. cbn. lia.
Qed.
Lemma delete_follows : forall E s s1 a r c u s', term_is s s1 (a ++ [c]) r ->
  delete_before_cursor E s1 = ORet u s' -> moved_on s s' a r.
Proof.
  intros E s s1 a r c u s' T H. unfold delete_before_cursor, gets, bind at 1 in H.
  rewrite (te_cursor _ _ _ _ T) in H.
  assert (Hc : length (a ++ [c]) = S (length a)) by (rewrite app_length; cbn; lia). rewrite Hc in H.
  cbn [Nat.ltb Nat.leb when Nat.sub] in H. rewrite Nat.sub_0_r in H. unfold bind at 2 in H. unfold bind at 1 in H.
  rewrite (with_cur_mut_eq _ s1 (ed_new s1)) in H by (unfold cur_buf; rewrite (te_loc _ _ _ _ T); reflexivity).
  unfold opened in H. rewrite (te_loc _ _ _ _ T) in H.
  assert (HD : data (ed_new s1) = a ++ [c] ++ r) by (rewrite (te_data _ _ _ _ T), <- app_assoc; reflexivity).
  pose proof (remove_app _ a [c] r HD) as R. cbn [length] in R. rewrite Nat.add_1_r in R. rewrite R in H.
  unfold modify in H.
  refine (change_follows E s _ a r u s' _ _ H); unfold store; rewrite (te_loc _ _ _ _ T); [|reflexivity].
  destruct T. constructor; edsimp; try assumption; reflexivity.
Qed.

Lemma op_follows : forall E s s1 k a a' r u s', edits k a a' -> term_is s s1 a r ->
  (match k with KChar c => insert_after_cursor E c | _ => delete_before_cursor E end) s1 = ORet u s' -> moved_on s s' a' r.
Proof.
  intros E s s1 k a a' r u s' H T D. destruct H as [c a H1 H2|c a].
  - exact (insert_follows E s s1 a r c u s' T D).
  - exact (delete_follows E s s1 a r c u s' T D).
Qed.

Lemma handle_edits : forall {K} (core : env -> key -> MK K unit) E k a a' x d y, edits k a a' ->
  handle_key core E k x = ORet d y ->
  d = false /\ exists z, core E k x = ORet tt z /\ y = (fst z, skip_completions_hint (snd z)).
Proof.
  intros K core E k a a' [kk s] d y H Hk. unfold handle_key, bind at 1 in Hk. cbn [gete] in Hk.
  unfold bind at 1 in Hk. destruct (cur_buf s) as [b|]; [|discriminate]. cbv beta iota zeta in Hk.
  assert (Hk' : (done <- (core E k ;;; mod_ed skip_completions_hint ;;; ret false) ;;
                 (if e_wok E then ret done else fail EOther)) (kk, s) = ORet d y).
  { destruct H as [c a H1 H2|c a].
    - apply N.eqb_neq in H1. apply N.eqb_neq in H2. rewrite H1, H2 in Hk. exact Hk.
    - exact Hk. }
  unfold bind in Hk'. destruct (core E k (kk, s)) as [[] [k1 s1]|e z|p|]; [|discriminate..].
  cbn [mod_ed ret] in Hk'. destruct (e_wok E); [|discriminate]. unfold ret in Hk'. injection Hk' as <- <-.
  split; [reflexivity|]. exists (k1, s1). split; reflexivity.
Qed.
Lemma moved_hint : forall s s' a r, moved_on s s' a r -> moved_on s (skip_completions_hint s') a r.
Proof. intros s s' a r H. exact H. Qed.

Lemma start_term : forall s t a r c, is_search s = true -> ed_loc s = None -> ed_noeol s = false -> line_is s t c ->
  t = a ++ r -> c = length a -> term_is s s a r.
Proof.
  intros s t a r c Q L N [b [B1 [B2 B3]]] -> ->. unfold cur_buf in B1. rewrite L in B1. injection B1 as <-.
  constructor; auto.
Qed.

Lemma emacs_follows : forall E k a a' r kk s d k' s' o, edits k a a' ->
  is_search s = true -> ed_loc s = None -> ed_noeol s = false -> line_is s (a ++ r) (length a) -> selected s o ->
  handle_key emacs_core E k (kk, s) = ORet d (k', s') ->
  d = false /\ is_search s' = true /\ ed_loc s' = None /\ ed_history s' = ed_history s /\ line_is s' (a' ++ r) (length a') /\
  data (ed_new s') = a' ++ r /\ exists o', selected s' o' /\ follows (matches s') (ed_fwd s) o o'.
Proof.
  intros E k a a' r kk s d k' s' o H Q L N Hl Hs Hk. destruct (handle_edits _ _ _ _ _ _ _ _ H Hk) as [-> [[z1 z2] [Z1 Z2]]].
  split; [reflexivity|]. injection Z2 as -> ->. cbn [fst snd].
  pose proof (start_term s _ a r _ Q L N Hl eq_refl eq_refl) as T.
  rewrite <- (proj1 Hs). change (moved_on s (skip_completions_hint z2) a' r). apply moved_hint.
  apply (op_follows E s s k a a' r tt z2 H T).
  unfold emacs_core in Z1. destruct H as [c a H1 H2|c a]; unfold bind, modk, lift in Z1.
  - destruct (insert_after_cursor E c s) as [[] y| | |]; try discriminate. injection Z1 as _ <-. reflexivity.
  - destruct (delete_before_cursor E s) as [[] y| | |]; try discriminate. injection Z1 as _ <-. reflexivity.
Qed.

(** Vi: closing and opening an undo group leaves the term alone. *)
Lemma group_term : forall f s a r v v1 s0 s1 u, f = start_undo_group \/ f = end_undo_group -> term_is s s0 a r ->
  buf_mut f (v, s0) = ORet u (v1, s1) -> v1 = v /\ term_is s s1 a r.
Proof.
  intros f s a r v v1 s0 s1 u Hf T H. unfold buf_mut, lift in H.
  rewrite (with_cur_mut_eq _ s0 (ed_new s0)) in H by (unfold cur_buf; rewrite (te_loc _ _ _ _ T); reflexivity).
  unfold pure_op, opened, store in H. rewrite (te_loc _ _ _ _ T) in H. injection H as _ <- <-.
  split; [reflexivity|]. destruct T. constructor; edsimp; try assumption.
  destruct Hf as [-> | ->]; [unfold start_undo_group|unfold end_undo_group]; assumption.
Qed.
Lemma reset_term : forall s a r v v1 s1 u, term_is s s a r -> insert_reset (v, s) = ORet u (v1, s1) -> term_is s s1 a r.
Proof.
  intros s a r v v1 s1 u T H. unfold insert_reset, bind at 1 in H. cbn [getk] in H. destruct (v_reset v); cbn [when] in H.
  - unfold bind at 1 in H. destruct (buf_mut end_undo_group (v, s)) as [u1 [v2 s2]| | |] eqn:B1; try discriminate.
    destruct (group_term _ _ _ _ _ _ _ _ _ (or_intror eq_refl) T B1) as [-> T2].
    unfold bind at 1 in H. destruct (buf_mut start_undo_group (v, s2)) as [u3 [v3 s3]| | |] eqn:B2; try discriminate.
    destruct (group_term _ _ _ _ _ _ _ _ _ (or_introl eq_refl) T2 B2) as [-> T3].
    unfold modk in H. injection H as _ _ <-. exact T3.
  - unfold ret in H. injection H as _ _ <-. exact T.
Qed.

Lemma vi_follows : forall E k a a' r v s d v' s' o, edits k a a' -> vmode_of v = MInsert ->
  is_search s = true -> ed_loc s = None -> ed_noeol s = false -> line_is s (a ++ r) (length a) -> selected s o ->
  handle_key vi_core E k (v, s) = ORet d (v', s') ->
  d = false /\ is_search s' = true /\ ed_loc s' = None /\ ed_history s' = ed_history s /\ line_is s' (a' ++ r) (length a') /\
  data (ed_new s') = a' ++ r /\ exists o', selected s' o' /\ follows (matches s') (ed_fwd s) o o'.
Proof.
  intros E k a a' r v s d v' s' o H M Q L N Hl Hs Hk. destruct (handle_edits _ _ _ _ _ _ _ _ H Hk) as [-> [[z1 z2] [Z1 Z2]]].
  split; [reflexivity|]. injection Z2 as -> ->. cbn [fst snd].
  pose proof (start_term s _ a r _ Q L N Hl eq_refl eq_refl) as T.
  rewrite <- (proj1 Hs). change (moved_on s (skip_completions_hint z2) a' r). apply moved_hint.
  unfold vi_core, bind at 1 in Z1. cbn [getk] in Z1. unfold vi_fuel in Z1. rewrite Nat.add_comm in Z1.
  change (10 + 3 * (length (v_last v) + length (v_cur v))) with (S (9 + 3 * (length (v_last v) + length (v_cur v)))) in Z1.
  remember (9 + 3 * (length (v_last v) + length (v_cur v))) as fu. clear Heqfu.
  cbn [vi_core_fuel] in Z1. unfold bind at 1 in Z1. cbn [getk] in Z1. rewrite M in Z1. cbv zeta in Z1.
  set (rec := vi_core_fuel fu E) in Z1. clearbody rec.
  assert (Z : (insert_reset ;;; push_last k ;;; lift (match k with KChar c => insert_after_cursor E c | _ => delete_before_cursor E end)) (v, s)
              = ORet tt (z1, z2)).
  { destruct H as [c a H1 H2|c a]; exact Z1. }
  clear Z1. unfold bind at 1 in Z. destruct (insert_reset (v, s)) as [u1 [v1 s1]| | |] eqn:R; try discriminate.
  pose proof (reset_term _ _ _ _ _ _ _ T R) as T1. unfold bind, push_last, modk in Z. unfold lift in Z.
  match type of Z with match ?m with _ => _ end = _ => destruct m as [[] y| | |] eqn:O; try discriminate end.
  injection Z as _ <-. exact (op_follows E s s1 k a a' r tt y H T1 O).
Qed.

(** * Stepping in whole sessions *)
Lemma follows_stay : forall (M : nat -> Prop) fwd i o, M i -> follows M fwd (Some i) o -> o = Some i.
Proof.
  intros M fwd i [j|] Hi H; cbn [follows] in H; [|destruct (H i Hi)].
  destruct H as [Hj H]. f_equal. destruct fwd.
  - destruct H as [[H1 H2]|H]; [specialize (H2 i Hi (le_n i)); lia|destruct (H i Hi); lia].
  - destruct H as [[H1 H2]|H]; [specialize (H2 i Hi (le_n i)); lia|destruct (H i Hi); lia].
Qed.
Lemma listed_matches : forall s i, listed s -> (In i (ed_subset s) <-> matches s i).
Proof. intros s i [H _]. rewrite H, search_index_data. exact (proj2 (search_index_spec (ed_history s) (data (ed_new s))) i). Qed.
Lemma listed_sorted : forall s, listed s -> StronglySorted lt (ed_subset s).
Proof. intros s [H _]. rewrite H, search_index_data. exact (proj1 (search_index_spec (ed_history s) (data (ed_new s)))). Qed.

Lemma step_exact : forall E fwd s u s' i, exact_ s -> is_search s = true -> selected s (Some i) ->
  search E fwd s = ORet u s' ->
  is_search s' = true /\ ed_new s' = ed_new s /\ ed_history s' = ed_history s /\
  exists j, selected s' (Some j) /\ next_match (matches s) fwd i j.
Proof.
  intros E fwd s u s' i X Q [Hi _] H. unfold search, bind, modify in H. rewrite Q in H. cbn [negb] in H.
  destruct (proj2 X Q) as [Li Ci]. unfold search_history_loc in Hi. destruct (ed_subloc s) as [p|] eqn:P; [|discriminate].
  destruct (next_match_pos (ed_subset s) fwd p i (listed_sorted s Li) Hi) as [j [J1 J2]].
  assert (J3 : next_match (matches s) fwd i j).
  { destruct J2 as [K1 K2]. split; [apply (listed_matches s j Li); exact K1|].
    destruct fwd; (destruct K2 as [[A B]|[A B]]; [left; split; [exact A|]|right; split]);
      intros k Hk; apply (listed_matches s k Li) in Hk; auto. }
  assert (St : exists o, search_step fwd s = set_subloc o s /\ search_history_loc (set_subloc o s) = Some j).
  { unfold search_step. destruct (ed_subset s) as [|x l] eqn:Es; [destruct p; discriminate|]. rewrite P.
    eexists. split; [reflexivity|]. unfold search_history_loc. edsimp. rewrite Es. exact J1. }
  destruct St as [o [St1 St2]].
  pose proof (step_pending fwd s (proj1 X)) as PD. rewrite St1 in H, PD.
  assert (Q1 : is_search (set_subloc o s) = true) by exact Q.
  assert (N1 : ed_new (set_subloc o s) = ed_new s) by reflexivity.
  assert (H1 : ed_history (set_subloc o s) = ed_history s) by reflexivity.
  assert (M1 : forall k, matches (set_subloc o s) k <-> matches s k) by (intro k; reflexivity).
  revert PD H St2 Q1 N1 H1 M1. generalize (set_subloc o s). clear o St1. intros s1 PD H St2 Q1 N1 H1 M1.
  pose proof (tri_display E s1 PD) as X'. rewrite H in X'.
  pose proof (display_out E s1) as D. rewrite H in D. destruct D as [g [b [tcl [cb [tty [_ [_ ->]]]]]]].
  assert (Q' : forall x g c tcl cb tty, is_search (shown x g c tcl cb tty) = is_search x) by reflexivity.
  assert (QR : is_search (refreshed s1) = true) by (rewrite refreshed_search; exact Q1).
  assert (NR : ed_new (refreshed s1) = ed_new s /\ ed_history (refreshed s1) = ed_history s /\ search_history_loc (refreshed s1) = Some j).
  { unfold refreshed. destruct (is_search s1 && ed_changed s1); [|auto].
    split; [exact N1|]. split; [exact H1|]. apply (follows_stay (matches (refresh_search (ed_fwd s1) s1)) (ed_fwd s1) j).
    - unfold matches, refresh_search. edsimp. apply (M1 j). apply J3.
    - rewrite <- St2. apply refresh_follows. }
  destruct NR as [NR1 [NR2 NR3]].
  split; [rewrite Q'; exact QR|]. split; [exact NR1|]. split; [exact NR2|].
  exists j. split; [|exact J3]. rewrite <- NR3.
  apply (exact_selected _ X'). rewrite Q'. exact QR.
Qed.

(** The search keys, in any key map. *)
Lemma step_key : forall {K} (core : env -> key -> MK K unit) E fwd k s d k' s' i, exact_ s -> is_search s = true ->
  selected s (Some i) -> handle_key core E (search_key fwd) (k, s) = ORet d (k', s') ->
  d = false /\ k' = k /\ is_search s' = true /\ ed_new s' = ed_new s /\ ed_history s' = ed_history s /\
  exists j, selected s' (Some j) /\ next_match (matches s) fwd i j.
Proof.
  intros K core E fwd k s d k' s' i X Q Hs H. unfold handle_key, bind at 1 in H. cbn [gete] in H.
  unfold bind at 1 in H. destruct (cur_buf s) as [b|]; [|discriminate]. 
  assert (H' : (done <- (lift (search E fwd) ;;; ret false) ;; (if e_wok E then ret done else fail EOther)) (k, s) = ORet d (k', s')).
  { destruct fwd; exact H. }
  unfold bind, lift in H'. destruct (search E fwd s) as [u s1| | |] eqn:S1; try discriminate.
  unfold ret in H'. destruct (e_wok E); [|discriminate]. injection H' as <- <- <-.
  split; [reflexivity|]. split; [reflexivity|]. exact (step_exact E fwd s u s1 i X Q Hs S1).
Qed.

Lemma emacs_shows : forall E p f ib h w cb ttys s l d k' s', editor_new E p f ib h w cb ttys = ORet tt s ->
  run_keys emacs_core l (emacs_new, s) = ORet d (k', s') -> is_search s' = true -> exists o, selected s' o.
Proof.
  intros E p f ib h w cb ttys s l d k' s' Hn Hr Q. eexists. apply exact_selected; [|exact Q].
  exact (emacs_exact _ _ _ _ _ _ _ _ _ _ _ _ _ Hn Hr).
Qed.
Lemma vi_shows : forall E p f ib h w cb ttys s E0 l d v' s', editor_new E p f ib h w cb ttys = ORet tt s ->
  (vi_init E0 ;;; run_keys vi_core l) (vi_new, s) = ORet d (v', s') -> is_search s' = true -> exists o, selected s' o.
Proof.
  intros E p f ib h w cb ttys s E0 l d v' s' Hn Hr Q. eexists. apply exact_selected; [|exact Q].
  exact (vi_exact _ _ _ _ _ _ _ _ _ _ _ _ _ _ Hn Hr).
Qed.
Lemma emacs_steps : forall E p f ib h w cb ttys s0 l k s E' fwd d k' s' i,
  editor_new E p f ib h w cb ttys = ORet tt s0 -> run_keys emacs_core l (emacs_new, s0) = ORet false (k, s) ->
  is_search s = true -> selected s (Some i) -> handle_key emacs_core E' (search_key fwd) (k, s) = ORet d (k', s') ->
  d = false /\ k' = k /\ is_search s' = true /\ ed_new s' = ed_new s /\ ed_history s' = ed_history s /\
  exists j, selected s' (Some j) /\ next_match (matches s) fwd i j.
Proof.
  intros E p f ib h w cb ttys s0 l k s E' fwd d k' s' i Hn Hr Q Hs Hk.
  exact (step_key _ _ _ _ _ _ _ _ _ (emacs_exact _ _ _ _ _ _ _ _ _ _ _ _ _ Hn Hr) Q Hs Hk).
Qed.
Lemma vi_steps : forall E p f ib h w cb ttys s0 E0 l v s E' fwd d v' s' i,
  editor_new E p f ib h w cb ttys = ORet tt s0 -> (vi_init E0 ;;; run_keys vi_core l) (vi_new, s0) = ORet false (v, s) ->
  is_search s = true -> selected s (Some i) -> handle_key vi_core E' (search_key fwd) (v, s) = ORet d (v', s') ->
  d = false /\ v' = v /\ is_search s' = true /\ ed_new s' = ed_new s /\ ed_history s' = ed_history s /\
  exists j, selected s' (Some j) /\ next_match (matches s) fwd i j.
Proof.
  intros E p f ib h w cb ttys s0 E0 l v s E' fwd d v' s' i Hn Hr Q Hs Hk.
  exact (step_key _ _ _ _ _ _ _ _ _ (vi_exact _ _ _ _ _ _ _ _ _ _ _ _ _ _ Hn Hr) Q Hs Hk).
Qed.
