(** What each editing method does to the line, outside a search: the exact new
    buffer and cursor. *)
From Verif Require Import Base Utf8 BufferModel UtilModel HistoryModel EditorState EditorModel
  KeymapModel MonadLemmas EditorLemmas CursorProofs Lemmas BufferProofs EditorProofs.
Local Open Scope monad_scope.

(** A normal return satisfies [Q]. *)
Definition ok {S A} (m : M S A) (s : S) (Q : A -> S -> Prop) : Prop :=
  match m s with ORet a s' => Q a s' | _ => True end.

Section OK.
  Context {S : Type}.
  Lemma ok_mono : forall {A} (m : M S A) s (Q Q' : A -> S -> Prop),
    ok m s Q -> (forall a s', Q a s' -> Q' a s') -> ok m s Q'.
  Proof. intros A m s Q Q' H HQ. unfold ok in *. destruct (m s); auto. Qed.
  Lemma ok_bind : forall {A B} (m : M S A) (k : A -> M S B) s Q,
    ok m s (fun a s' => ok (k a) s' Q) -> ok (bind m k) s Q.
  Proof. intros A B m k s Q H. unfold ok, bind in *. destruct (m s); auto. Qed.
  Lemma ok_seq : forall {A B} (m : M S A) (k : A -> M S B) s (P : A -> S -> Prop) (Q : B -> S -> Prop),
    ok m s P -> (forall a s', P a s' -> ok (k a) s' Q) -> ok (bind m k) s Q.
  Proof. intros A B m k s P Q H H'. apply ok_bind. eapply ok_mono; [exact H|exact H']. Qed.
  Lemma ok_ret : forall {A} (a : A) s (Q : A -> S -> Prop), Q a s -> ok (ret a) s Q.
  Proof. intros. exact H. Qed.
  Lemma ok_pan : forall {A} p s (Q : A -> S -> Prop), ok (pan p) s Q.
  Proof. intros. exact I. Qed.
  Lemma ok_fail : forall {A} e s (Q : A -> S -> Prop), ok (fail e) s Q.
  Proof. intros. exact I. Qed.
  Lemma ok_get : forall s (Q : S -> S -> Prop), Q s s -> ok get s Q.
  Proof. intros. exact H. Qed.
  Lemma ok_gets : forall {A} (f : S -> A) s (Q : A -> S -> Prop), Q (f s) s -> ok (gets f) s Q.
  Proof. intros. exact H. Qed.
  Lemma ok_modify : forall (f : S -> S) s (Q : unit -> S -> Prop), Q tt (f s) -> ok (modify f) s Q.
  Proof. intros. exact H. Qed.
  Lemma ok_liftr : forall {A} (r : res A) s (Q : A -> S -> Prop),
    (forall a, r = Val a -> Q a s) -> ok (liftr r) s Q.
  Proof. intros A r s Q H. unfold ok, liftr. destruct r; auto. Qed.
  Lemma ok_of : forall {A} (m : M S A) s (Q : A -> S -> Prop) a s', ok m s Q -> m s = ORet a s' -> Q a s'.
  Proof. intros A m s Q a s' H E. unfold ok in H. rewrite E in H. exact H. Qed.
  Lemma ok_in : forall {A} (m : M S A) s (Q : A -> S -> Prop), (forall a s', m s = ORet a s' -> Q a s') -> ok m s Q.
  Proof. intros A m s Q H. unfold ok. destruct (m s); auto. Qed.
  Lemma ok_and : forall {A} (m : M S A) s (Q Q' : A -> S -> Prop), ok m s Q -> ok m s Q' ->
    ok m s (fun a s' => Q a s' /\ Q' a s').
  Proof. intros A m s Q Q' H H'. unfold ok in *. destruct (m s); auto. Qed.
  Lemma ok_wp : forall {A} (m : M S A) s (Q : A -> S -> Prop) X P, wp m s Q X P -> ok m s Q.
  Proof. intros A m s Q X P H. unfold ok, wp in *. destruct (m s); auto. Qed.
End OK.

(** * The line *)

(** No search is going on, the buffer an edit would change is [b], the cursor
    is at [c], and [e] says whether the cursor must stay before the end. *)
Definition view (s : ed) (b : buffer) (c : nat) (e : bool) : Prop :=
  is_search s = false /\ (exists b0, cur_buf s = Val b0 /\ b = opened s b0) /\
  ed_cursor s = c /\ ed_noeol s = e.

(** What editing leaves alone. *)
Definition stay (s s' : ed) : Prop :=
  ed_loc s' = ed_loc s /\ ed_history s' = ed_history s /\ ed_showauto s' = ed_showauto s /\
  ed_hint s' = ed_hint s /\ ed_subset s' = ed_subset s /\ ed_subloc s' = ed_subloc s /\
  ed_fresh s' = ed_fresh s /\ ed_fs s' = ed_fs s /\
  (ed_loc s <> None -> ed_new s' = ed_new s) /\
  (ed_loc s = None -> ed_hist s' = ed_hist s /\ ed_hvalid s' = ed_hvalid s).

Definition resugg (s : ed) : Prop := current_autosuggestion s = Val (ed_sugg s).

Definition lands (s : ed) (b : buffer) (c : nat) (e : bool) (s' : ed) : Prop :=
  view s' b c e /\ stay s s' /\ resugg s'.

Lemma stay_refl : forall s, stay s s.
Proof. intro s. unfold stay. tauto. Qed.
Lemma stay_trans : forall a b c, stay a b -> stay b c -> stay a c.
Proof.
  unfold stay. intros a b c [A1 [A2 [A3 [A4 [A5 [A6 [A7 [A8 [A9 A10]]]]]]]]]
    [B1 [B2 [B3 [B4 [B5 [B6 [B7 [B8 [B9 B10]]]]]]]]].
  do 8 (split; [congruence|]). split.
  - intro Hn. rewrite B9 by congruence. apply A9. exact Hn.
  - intro Hn. destruct (A10 Hn) as [K1 K2]. rewrite <- A1 in Hn. destruct (B10 Hn) as [K3 K4].
    split; congruence.
Qed.

Lemma view_line : forall s b c e, view s b c e ->
  exists b0, cur_buf s = Val b0 /\ data b0 = data b.
Proof. intros s b c e [_ [[b0 [H ->]] _]]. exists b0. rewrite data_opened. auto. Qed.
Lemma view_of : forall s b, is_search s = false -> cur_buf s = Val b ->
  view s (opened s b) (ed_cursor s) (ed_noeol s).
Proof. intros s b H1 H2. split; [exact H1|]. split; [exists b; auto|]. auto. Qed.
Lemma view_det : forall s b c e b' c' e', view s b c e -> view s b' c' e' -> b = b' /\ c = c' /\ e = e'.
Proof.
  intros s b c e b' c' e' [_ [[x [H1 H2]] [H3 H4]]] [_ [[y [H5 H6]] [H7 H8]]].
  assert (x = y) by congruence. subst. auto.
Qed.

Lemma view_cursor : forall n s b c e, view s b c e -> view (set_cursor n s) b n e.
Proof. intros n s b c e [H1 [H2 [H3 H4]]]. split; [exact H1|]. split; [exact H2|]. auto. Qed.
Lemma view_store : forall b' s b c e, view s b c e -> view (store b' s) b' c e.
Proof.
  intros b' s b c e [H1 [H2 [H3 H4]]]. split; [rewrite store_search; exact H1|].
  split; [|rewrite store_cursor, store_noeol; auto].
  exists b'. split; [apply cur_store|]. unfold opened, store. destruct (ed_loc s) eqn:El; edsimp; rewrite El; reflexivity.
Qed.
Lemma view_noeol : forall e' s b c e, view s b c e -> view (set_noeol e' s) b c e'.
Proof. intros n s b c e [H1 [H2 [H3 H4]]]. split; [exact H1|]. split; [exact H2|]. auto. Qed.
Lemma view_hint : forall h s b c e, view s b c e -> view (set_hint h s) b c e.
Proof. intros n s b c e [H1 [H2 [H3 H4]]]. split; [exact H1|]. split; [exact H2|]. auto. Qed.
Lemma view_prompt : forall p s b c e, view s b c e -> view (set_prompt p s) b c e.
Proof. intros n s b c e [H1 [H2 [H3 H4]]]. split; [exact H1|]. split; [exact H2|]. auto. Qed.

Lemma stay_cursor : forall n s, stay s (set_cursor n s).
Proof. intros n s. unfold stay. edsimp. tauto. Qed.
Lemma stay_store : forall b s, stay s (store b s).
Proof. intros b s. unfold stay, store. destruct (ed_loc s) eqn:El; edsimp; intuition congruence. Qed.
Lemma stay_shown : forall s g c tcl cb tty, stay s (shown s g c tcl cb tty).
Proof. intros. unfold stay, shown. edsimp. tauto. Qed.

(** * The methods *)

Lemma ok_display : forall E s b c e, view s b c e ->
  ok (display E) s (fun _ s' => lands s b (clamp_cursor e (length (data b)) c) e s').
Proof.
  intros E s b c e V. pose proof V as [H1 [[b0 [H2 H5]] [H3 H4]]]. apply ok_in. intros a s' H.
  destruct (display_plain E s s' a H1 H) as [g [b1 [tcl [cb [tty [K1 [K2 ->]]]]]]].
  assert (b1 = b0) by congruence. subst b1. rewrite H3, H4.
  replace (num_chars b0) with (length (data b)) by (subst b; rewrite data_opened; reflexivity).
  split; [|split; [apply stay_shown|exact K1]].
  split; [exact H1|]. split; [exists b0; split; [exact H2|exact H5]|]. split; [reflexivity|exact H4].
Qed.

Lemma ok_get_cur : forall s b c e, view s b c e ->
  ok get_cur s (fun x s' => s' = s /\ data x = data b).
Proof.
  intros s b c e V. destruct (view_line _ _ _ _ V) as [b0 [H1 H2]]. unfold ok, get_cur.
  rewrite H1. auto.
Qed.

(** Setting the cursor and redrawing. *)
Lemma ok_goto : forall E n s b c e, view s b c e ->
  ok (modify (set_cursor n) ;;; display E) s
     (fun _ s' => lands s b (clamp_cursor e (length (data b)) n) e s').
Proof.
  intros E n s b c e V. apply ok_bind, ok_modify.
  eapply ok_mono; [apply (ok_display E _ _ _ _ (view_cursor n _ _ _ _ V))|].
  intros a s' [H1 [H2 H3]]. split; [exact H1|]. split; [|exact H3].
  eapply stay_trans; [apply stay_cursor|exact H2].
Qed.

Lemma ok_move_end : forall E s b c e, view s b c e ->
  ok (move_cursor_to_end_of_line E) s
     (fun _ s' => lands s b (clamp_cursor e (length (data b)) (length (data b))) e s').
Proof.
  intros E s b c e V. unfold move_cursor_to_end_of_line.
  eapply ok_seq; [apply (ok_get_cur _ _ _ _ V)|]. intros x s' [-> Hx]. unfold num_chars. rewrite Hx.
  apply (ok_goto E _ _ _ _ _ V).
Qed.
Lemma ok_move_start : forall E s b c e, view s b c e ->
  ok (move_cursor_to_start_of_line E) s (fun _ s' => lands s b 0 e s').
Proof.
  intros E s b c e V. unfold move_cursor_to_start_of_line. eapply ok_mono; [apply (ok_goto E _ _ _ _ _ V)|].
  cbv beta. intros _ s'.
  replace (clamp_cursor e (length (data b)) 0) with 0; [auto|].
  unfold clamp_cursor. destruct (length (data b)); cbn; destruct e; reflexivity.
Qed.
Lemma ok_move_to : forall E n s b c e, view s b c e ->
  ok (move_cursor_to E n) s
     (fun _ s' => lands s b (clamp_cursor e (length (data b)) (Nat.min n (length (data b)))) e s').
Proof.
  intros E n s b c e V. unfold move_cursor_to.
  eapply ok_seq; [apply (ok_get_cur _ _ _ _ V)|]. intros x s' [-> Hx]. unfold num_chars. rewrite Hx.
  eapply ok_mono; [apply (ok_goto E _ _ _ _ _ V)|]. cbv beta. intros _ s'.
  replace (Nat.min n (length (data b)))
    with (if length (data b) <? n then length (data b) else n); [auto|].
  destruct (length (data b) <? n) eqn:En; [apply Nat.ltb_lt in En|apply Nat.ltb_ge in En]; lia.
Qed.
Lemma ok_move_left : forall E n s b c e, view s b c e ->
  ok (move_cursor_left E n) s
     (fun _ s' => lands s b (clamp_cursor e (length (data b)) (c - n)) e s').
Proof.
  intros E n s b c e V. unfold move_cursor_left. apply ok_bind, ok_modify.
  destruct V as [V1 [V2 [V3 V4]]] eqn:EV. clear EV. rewrite V3.
  replace (c - (if c <? n then c else n)) with (c - n).
  2: { destruct (c <? n) eqn:En; [apply Nat.ltb_lt in En|apply Nat.ltb_ge in En]; lia. }
  eapply ok_mono; [apply (ok_display E _ b (c - n) e)|].
  - split; [exact V1|]. split; [exact V2|]. auto.
  - intros a s' [H1 [H2 H3]]. split; [exact H1|]. split; [|exact H3].
    eapply stay_trans; [apply stay_cursor|exact H2].
Qed.
Lemma ok_move_right : forall E n s b c e, view s b c e ->
  ok (move_cursor_right E n) s
     (fun _ s' => lands s b (clamp_cursor e (length (data b)) (Nat.min (c + n) (length (data b)))) e s').
Proof.
  intros E n s b c e V. unfold move_cursor_right.
  eapply ok_seq; [apply (ok_get_cur _ _ _ _ V)|]. intros x s' [-> Hx]. unfold num_chars. rewrite Hx.
  apply ok_bind, ok_get, ok_bind, ok_liftr. intros room Hroom. apply ok_bind, ok_modify.
  pose proof V as [V1 [V2 [V3 V4]]]. rewrite V3 in *.
  unfold sub_chk in Hroom. destruct (c <=? length (data b)) eqn:Ec; [|discriminate].
  injection Hroom as <-. apply Nat.leb_le in Ec.
  set (n' := c + _). replace (Nat.min (c + n) (length (data b))) with n'.
  2: { unfold n'. destruct (length (data b) - c <? n) eqn:En; [apply Nat.ltb_lt in En|apply Nat.ltb_ge in En]; lia. }
  eapply ok_mono; [apply (ok_display E _ b n' e)|].
  - split; [exact V1|]. split; [exact V2|]. auto.
  - intros a s' [H1 [H2 H3]]. split; [exact H1|]. split; [|exact H3].
    eapply stay_trans; [apply stay_cursor|exact H2].
Qed.

(** * Edits *)

Lemma ok_mut : forall {A} (f : buffer -> res (A * buffer)) s b c e, view s b c e ->
  ok (with_cur_mut f) s (fun a s' => exists b', f b = Val (a, b') /\ view s' b' c e /\ stay s s').
Proof.
  intros A f s b c e V. pose proof V as [_ [[b0 [H1 H2]] _]].
  unfold ok. rewrite (with_cur_mut_eq f s b0 H1), <- H2.
  destruct (f b) as [[a b']|p]; [|exact I]. exists b'. split; [reflexivity|].
  split; [apply (view_store _ _ _ _ _ V)|apply stay_store].
Qed.

(** The buffer after taking [m] out from behind [a], and after putting [t] there. *)
Definition cut (b : buffer) (a m r : text) : buffer :=
  mkBuf (a ++ r) (ARemove (length a) m :: actions b) [].
Definition put (b : buffer) (a t r : text) : buffer :=
  mkBuf (a ++ t ++ r) (AInsert (length a) t :: actions b) [].

Lemma remove_cut : forall b i j n b', buf_remove b i j = Val (n, b') ->
  exists a m r, data b = a ++ m ++ r /\ length a = i /\ length m = j - i /\ i <= j /\
    n = length m /\ b' = cut b a m r.
Proof.
  intros b i j n b' H.
  destruct (le_dec i j) as [H1|H1]; [destruct (le_dec j (length (data b))) as [H2|H2]|].
  - destruct (split3 (data b) i j H1 H2) as [a [m [r [H3 [H4 H5]]]]]. 
    exists a, m, r. split; [exact H3|]. split; [exact H4|].
    assert (Hm : length m = j - i) by lia. split; [exact Hm|]. split; [exact H1|].
    pose proof (remove_app b a m r H3) as K. rewrite H4, Hm in K.
    replace (i + (j - i)) with j in K by lia. rewrite H in K. injection K as -> ->.
    split; [symmetry; exact Hm|]. unfold cut. rewrite H4. reflexivity.
  - unfold buf_remove in H. rewrite remove_raw_pan in H by tauto. discriminate.
  - unfold buf_remove in H. rewrite remove_raw_pan in H by tauto. discriminate.
Qed.

Lemma ok_insert : forall E t s b c e a r, view s b c e -> data b = a ++ r -> length a = c ->
  ok (insert_chars_after_cursor E t) s
     (fun _ s' => lands s (put b a t r)
                    (clamp_cursor e (length (a ++ t ++ r)) (length (a ++ t))) e s').
Proof.
  intros E t s b c e a r V Hd Ha. unfold insert_chars_after_cursor. apply ok_bind, ok_gets.
  eapply ok_seq; [apply (ok_mut _ _ _ _ _ V)|]. intros u s1 [b' [Hf [V1 S1]]].
  unfold unit_op in Hf. pose proof V as [_ [_ [Hc _]]]. rewrite Hc, <- Ha in Hf.
  rewrite (insert_app b a r t Hd) in Hf. cbn [rbind] in Hf. injection Hf as _ <-.
  apply ok_bind, ok_modify. pose proof V1 as [_ [_ [Hc1 _]]]. rewrite Hc1.
  eapply ok_mono; [apply (ok_display E _ _ _ _ (view_cursor (c + length t) _ _ _ _ V1))|].
  intros x s' [H1 [H2 H3]]. unfold put. cbn [data] in H1. replace (length (a ++ t)) with (c + length t) by (rewrite app_length; lia).
  split; [exact H1|]. split; [|exact H3].
  eapply stay_trans; [exact S1|]. eapply stay_trans; [apply stay_cursor|exact H2].
Qed.

(** Removing between two positions and leaving the cursor at [n]. *)
Lemma ok_cut : forall E {A} (f : buffer -> res (A * buffer)) i j n s b c e, view s b c e ->
  (forall x y, f b = Val (x, y) -> exists k, buf_remove b i j = Val (k, y)) ->
  ok (with_cur_mut f ;;; modify (set_cursor n) ;;; display E) s
     (fun _ s' => exists a m r, data b = a ++ m ++ r /\ length a = i /\ length m = j - i /\ i <= j /\
        lands s (cut b a m r) (clamp_cursor e (length (a ++ r)) n) e s').
Proof.
  intros E A f i j n s b c e V Hf. eapply ok_seq; [apply (ok_mut _ _ _ _ _ V)|].
  intros x s1 [b' [H [V1 S1]]]. destruct (Hf _ _ H) as [k Hk].
  destruct (remove_cut _ _ _ _ _ Hk) as [a [m [r [H1 [H2 [H3 [H4 [_ ->]]]]]]]].
  eapply ok_mono; [apply (ok_goto E n _ _ _ _ V1)|]. intros _ s' [K1 [K2 K3]].
  exists a, m, r. split; [exact H1|]. split; [exact H2|]. split; [exact H3|]. split; [exact H4|].
  split; [exact K1|]. split; [eapply stay_trans; [exact S1|exact K2]|exact K3].
Qed.

Lemma ok_delete_until : forall E n s b c e, view s b c e ->
  ok (delete_until E n) s (fun _ s' => exists a m r, data b = a ++ m ++ r /\
    length a = Nat.min c n /\ length m = Nat.max c n - Nat.min c n /\
    lands s (cut b a m r) (clamp_cursor e (length (a ++ r)) (length a)) e s').
Proof.
  intros E n s b c e V. unfold delete_until. apply ok_bind, ok_gets. pose proof V as [_ [_ [Hc _]]]. rewrite Hc.
  eapply ok_mono; [apply (ok_cut E _ (Nat.min c n) (Nat.max c n) (Nat.min c n) _ _ _ _ V)|].
  - intros x y H. exists x. exact H.
  - intros _ s' [a [m [r [H1 [H2 [H3 [_ H4]]]]]]]. exists a, m, r.
    split; [exact H1|]. split; [exact H2|]. split; [exact H3|]. rewrite H2. exact H4.
Qed.
Lemma ok_delete_until_inc : forall E n s b c e, view s b c e ->
  ok (delete_until_inclusive E n) s (fun _ s' => exists a m r, data b = a ++ m ++ r /\
    length a = Nat.min c n /\ length m = S (Nat.max c n) - Nat.min c n /\
    lands s (cut b a m r) (clamp_cursor e (length (a ++ r)) (length a)) e s').
Proof.
  intros E n s b c e V. unfold delete_until_inclusive. apply ok_bind, ok_gets.
  pose proof V as [_ [_ [Hc _]]]. rewrite Hc.
  eapply ok_mono; [apply (ok_cut E _ (Nat.min c n) (Nat.max (c + 1) (n + 1)) (Nat.min c n) _ _ _ _ V)|].
  - intros x y H. exists x. exact H.
  - intros _ s' [a [m [r [H1 [H2 [H3 [_ H4]]]]]]]. exists a, m, r.
    split; [exact H1|]. split; [exact H2|].
    replace (S (Nat.max c n)) with (Nat.max (c + 1) (n + 1)) by lia.
    split; [exact H3|]. rewrite H2. exact H4.
Qed.
Lemma ok_delete_all_before : forall E s b c e, view s b c e ->
  ok (delete_all_before_cursor E) s (fun _ s' => exists m r, data b = m ++ r /\ length m = c /\
    lands s (cut b [] m r) 0 e s').
Proof.
  intros E s b c e V. unfold delete_all_before_cursor. apply ok_bind, ok_gets.
  pose proof V as [_ [_ [Hc _]]]. rewrite Hc.
  eapply ok_mono; [apply (ok_cut E _ 0 c 0 _ _ _ _ V)|].
  - intros x y H. exists x. exact H.
  - intros _ s' [a [m [r [H1 [H2 [H3 [_ H4]]]]]]]. destruct a; [|discriminate]. exists m, r.
    split; [exact H1|]. split; [lia|].
    replace (clamp_cursor e (length ([] ++ r)) 0) with 0 in H4; [exact H4|].
    unfold clamp_cursor. destruct (length ([] ++ r)); cbn; destruct e; reflexivity.
Qed.
Lemma ok_delete_all_after : forall E s b c e, view s b c e ->
  ok (delete_all_after_cursor E) s (fun _ s' => exists a m, data b = a ++ m /\ length a = c /\
    lands s (cut b a m []) (clamp_cursor e c c) e s').
Proof.
  intros E s b c e V. unfold delete_all_after_cursor. apply ok_bind, ok_gets.
  pose proof V as [_ [_ [Hc _]]]. rewrite Hc.
  eapply ok_seq; [apply (ok_mut _ _ _ _ _ V)|]. intros u s1 [b' [Hf [V1 S1]]].
  unfold unit_op, buf_truncate in Hf.
  destruct (buf_remove b c (length (data b))) as [[k y]|p] eqn:Hk; [|discriminate].
  cbn [rbind] in Hf. injection Hf as _ <-.
  destruct (remove_cut _ _ _ _ _ Hk) as [a [m [r [H1 [H2 [H3 [H4 [_ ->]]]]]]]].
  assert (r = []).
  { apply (f_equal (@length N)) in H1. rewrite !app_length in H1. destruct r; [reflexivity|]. cbn in H1. lia. }
  subst r. rewrite app_nil_r in H1.
  eapply ok_mono; [apply (ok_display E _ _ _ _ V1)|]. intros _ s' [K1 [K2 K3]].
  exists a, m. split; [exact H1|]. split; [exact H2|].
  unfold cut in *. cbn [data] in K1. rewrite app_nil_r in K1 at 2. rewrite H2 in K1 at 2.
  split; [exact K1|]. split; [eapply stay_trans; [exact S1|exact K2]|exact K3].
Qed.
Lemma ok_delete_before : forall E s b c e, view s b c e ->
  ok (delete_before_cursor E) s (fun _ s' =>
    (c = 0 /\ lands s b 0 e s') \/
    exists a x r, data b = a ++ [x] ++ r /\ length a = c - 1 /\ 0 < c /\
      lands s (cut b a [x] r) (clamp_cursor e (length (a ++ r)) (length a)) e s').
Proof.
  intros E s b c e V. unfold delete_before_cursor. apply ok_bind, ok_gets.
  pose proof V as [_ [_ [Hc _]]]. rewrite Hc. destruct c as [|c]; cbn [Nat.ltb Nat.leb when].
  - apply ok_bind, ok_ret. eapply ok_mono; [apply (ok_display E _ _ _ _ V)|].
    cbv beta. intros _ s' H. left. split; [reflexivity|].
    replace (clamp_cursor e (length (data b)) 0) with 0 in H; [exact H|].
    unfold clamp_cursor. destruct (length (data b)); cbn; destruct e; reflexivity.
  - apply ok_bind. eapply ok_seq; [apply (ok_mut _ _ _ _ _ V)|]. intros k s1 [b' [Hf [V1 S1]]].
    apply ok_modify.
    destruct (remove_cut _ _ _ _ _ Hf) as [a [m [r [H1 [H2 [H3 [H4 [_ ->]]]]]]]].
    destruct m as [|x [|y m]]; cbn [length] in H3; try lia.
    eapply ok_mono; [apply (ok_display E _ _ _ _ (view_cursor (S c - 1) _ _ _ _ V1))|].
    intros _ s' [K1 [K2 K3]]. right. exists a, x, r. split; [exact H1|]. split; [exact H2|].
    split; [lia|]. unfold cut in *. cbn [data] in K1. rewrite <- H2 in K1. split; [exact K1|].
    split; [|exact K3]. eapply stay_trans; [exact S1|]. eapply stay_trans; [apply stay_cursor|exact K2].
Qed.
Lemma ok_delete_after : forall E s b c e, view s b c e ->
  ok (delete_after_cursor E) s (fun _ s' =>
    (length (data b) <= c /\ lands s b (clamp_cursor e (length (data b)) c) e s') \/
    exists a x r, data b = a ++ [x] ++ r /\ length a = c /\
      lands s (cut b a [x] r) (clamp_cursor e (length (a ++ r)) c) e s').
Proof.
  intros E s b c e V. unfold delete_after_cursor. apply ok_bind, ok_gets.
  pose proof V as [_ [_ [Hc _]]]. rewrite Hc.
  eapply ok_seq; [apply (ok_mut _ _ _ _ _ V)|]. intros u s1 [b' [Hf [V1 S1]]].
  unfold num_chars in Hf. destruct (c <? length (data b)) eqn:El.
  - apply Nat.ltb_lt in El. destruct (buf_remove b c (c + 1)) as [[k y]|p] eqn:Hk; [|discriminate].
    cbn [rbind] in Hf. injection Hf as _ <-.
    destruct (remove_cut _ _ _ _ _ Hk) as [a [m [r [H1 [H2 [H3 [H4 [_ ->]]]]]]]].
    destruct m as [|x [|y m]]; cbn [length] in H3; try lia.
    eapply ok_mono; [apply (ok_display E _ _ _ _ V1)|]. intros _ s' [K1 [K2 K3]].
    right. exists a, x, r. split; [exact H1|]. split; [exact H2|]. split; [exact K1|].
    split; [eapply stay_trans; [exact S1|exact K2]|exact K3].
  - apply Nat.ltb_ge in El. injection Hf as _ <-.
    eapply ok_mono; [apply (ok_display E _ _ _ _ V1)|]. intros _ s' [K1 [K2 K3]].
    left. split; [exact El|]. split; [exact K1|]. split; [eapply stay_trans; [exact S1|exact K2]|exact K3].
Qed.

Lemma ok_undo_like : forall E f s b c e, view s b c e ->
  ok (undo_like E f) s (fun did s' => exists b', f b = Val (did, b') /\
    lands s b' (clamp_cursor e (length (data b')) (if did then length (data b') else c)) e s').
Proof.
  intros E f s b c e V. unfold undo_like. eapply ok_seq; [apply (ok_mut _ _ _ _ _ V)|].
  intros did s1 [b' [Hf [V1 S1]]]. destruct did.
  - eapply ok_seq; [apply (ok_move_end E _ _ _ _ V1)|]. intros u s' [K1 [K2 K3]]. apply ok_ret.
    exists b'. split; [exact Hf|]. split; [exact K1|].
    split; [eapply stay_trans; [exact S1|exact K2]|exact K3].
  - eapply ok_seq; [apply (ok_display E _ _ _ _ V1)|]. intros u s' [K1 [K2 K3]]. apply ok_ret.
    exists b'. split; [exact Hf|]. split; [exact K1|].
    split; [eapply stay_trans; [exact S1|exact K2]|exact K3].
Qed.

(** * Inside a key map *)
Section Keymap.
  Context {K : Type}.
  Lemma ok_lift : forall {A} (m : ME A) (k : K) s Q,
    ok m s (fun a s' => Q a (k, s')) -> ok (lift m) (k, s) Q.
  Proof. intros A m k s Q H. unfold ok, lift in *. destruct (m s); auto. Qed.
  Lemma ok_getk : forall (k : K) s (Q : K -> K * ed -> Prop), Q k (k, s) -> ok getk (k, s) Q.
  Proof. intros. exact H. Qed.
  Lemma ok_gete : forall (k : K) s (Q : ed -> K * ed -> Prop), Q s (k, s) -> ok gete (k, s) Q.
  Proof. intros. exact H. Qed.
  Lemma ok_modk : forall f (k : K) s (Q : unit -> K * ed -> Prop), Q tt (f k, s) -> ok (modk f) (k, s) Q.
  Proof. intros. exact H. Qed.
  Lemma ok_mod_ed : forall f (k : K) s (Q : unit -> K * ed -> Prop), Q tt (k, f s) -> ok (mod_ed f) (k, s) Q.
  Proof. intros. exact H. Qed.
End Keymap.
