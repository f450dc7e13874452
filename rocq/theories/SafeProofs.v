(** No panic: the editor. *)
From Verif Require Import Base Utf8 Utf8Proofs BufferModel UtilModel HistoryModel EditorState EditorModel
  KeymapModel MonadLemmas EditorLemmas CursorProofs Lemmas BufferSpec BufferProofs TextProofs UtilSpec UtilProofs
  HistorySpec HistoryProofs CompleteProofs EditorSpec ErrorProofs EditorProofs SuggestProofs EditorOps TabProofs SafeSpec.
Local Open Scope monad_scope.

(** * Drawing *)

Lemma roundup_mono : forall tw a b, 0 < tw -> a <= b ->
  (if negb (a mod tw =? 0) then (a / tw + 1) * tw else a) <= (if negb (b mod tw =? 0) then (b / tw + 1) * tw else b).
Proof.
  intros tw a b Htw H. pose proof (Nat.div_mod a tw ltac:(lia)) as Ha. pose proof (Nat.div_mod b tw ltac:(lia)) as Hb.
  pose proof (Nat.mod_upper_bound a tw ltac:(lia)). pose proof (Nat.mod_upper_bound b tw ltac:(lia)).
  assert (Hd : a / tw <= b / tw) by (apply Nat.div_le_mono; lia).
  destruct (a mod tw =? 0) eqn:E1; destruct (b mod tw =? 0) eqn:E2; cbn [negb];
    rewrite ?Nat.eqb_eq, ?Nat.eqb_neq in *; try nia.
  assert (a / tw < b / tw \/ a / tw = b / tw) as [K|K] by lia; [nia|]. rewrite K in Ha. nia.
Qed.
Lemma roundup_ge : forall tw a, 0 < tw -> a <= (if negb (a mod tw =? 0) then (a / tw + 1) * tw else a).
Proof.
  intros tw a Htw. pose proof (Nat.div_mod a tw ltac:(lia)) as Ha. pose proof (Nat.mod_upper_bound a tw ltac:(lia)).
  destruct (negb (a mod tw =? 0)); nia.
Qed.

Definition cstep (pw tw : nat) (total line : nat) : nat :=
  (if negb (total mod tw =? 0) then (total / tw + 1) * tw else total) + (pw + line).
Lemma calc_cstep : forall pw l tw, calc_width pw l tw = fold_left (cstep pw tw) l 0.
Proof. reflexivity. Qed.
Lemma cstep_mono : forall pw pw' tw a a' x x', 0 < tw -> pw <= pw' -> a <= a' -> x <= x' -> cstep pw tw a x <= cstep pw' tw a' x'.
Proof. intros. unfold cstep. pose proof (roundup_mono tw a a'). lia. Qed.
Lemma cfold_ge : forall pw tw l a, 0 < tw -> a <= fold_left (cstep pw tw) l a.
Proof.
  intros pw tw l. induction l as [|x l IH]; intros a Ht; cbn [fold_left]; [lia|].
  pose proof (IH (cstep pw tw a x) Ht). unfold cstep in *. pose proof (roundup_ge tw a Ht). lia.
Qed.
(** One list of widths is dominated by another. *)
Inductive below : list nat -> list nat -> Prop :=
| below_nil : forall l, below [] l
| below_cons : forall x y l l', x <= y -> below l l' -> below (x :: l) (y :: l').
Lemma below_refl : forall l, below l l.
Proof. induction l; constructor; auto. Qed.
Lemma cfold_mono : forall pw pw' tw l l', below l l' -> 0 < tw -> pw <= pw' -> forall a a', a <= a' ->
  fold_left (cstep pw tw) l a <= fold_left (cstep pw' tw) l' a'.
Proof.
  intros pw pw' tw l l' H Ht Hp. induction H as [l|x y l l' Hx H IH]; intros a a' Ha; cbn [fold_left].
  - pose proof (cfold_ge pw' tw l a' Ht). lia.
  - apply IH. apply cstep_mono; assumption.
Qed.
Lemma calc_mono : forall pw pw' tw l l', below l l' -> 0 < tw -> pw <= pw' -> calc_width pw l tw <= calc_width pw' l' tw.
Proof. intros. rewrite !calc_cstep. apply cfold_mono; auto. Qed.

(** Prefixes of a text *)
Lemma split_below : forall (f : text -> nat), (forall a b, f a <= f (a ++ b)) -> forall a b p,
  below (map f (match split_on c_nl a with [] => [] | x :: l => (p ++ x) :: l end))
        (map f (match split_on c_nl (a ++ b) with [] => [] | x :: l => (p ++ x) :: l end)).
Proof.
  intros f Hf. induction a as [|c a IH]; intros b p.
  - cbn [app split_on map]. destruct (split_on c_nl b) as [|x l] eqn:E; [destruct (split_on_nonempty c_nl b E)|].
    cbn [map]. rewrite app_nil_r. constructor; [apply Hf|constructor].
  - cbn [app split_on]. destruct (N.eqb c c_nl).
    + cbn [map]. constructor; [lia|]. specialize (IH b []).
      destruct (split_on c_nl a); destruct (split_on c_nl (a ++ b)); exact IH.
    + specialize (IH b (p ++ [c])).
      destruct (split_on c_nl a) as [|x l] eqn:E1; [destruct (split_on_nonempty c_nl a E1)|].
      destruct (split_on c_nl (a ++ b)) as [|y l'] eqn:E2; [destruct (split_on_nonempty c_nl (a ++ b) E2)|].
      rewrite <- !app_assoc in IH. cbn [app] in IH. exact IH.
Qed.
Lemma widths_below : forall U a b, (forall a b, u_width U a <= u_width U (a ++ b)) ->
  below (map (u_width U) (split_on c_nl a)) (map (u_width U) (split_on c_nl (a ++ b))).
Proof.
  intros U a b H. pose proof (split_below (u_width U) H a b []) as K.
  destruct (split_on c_nl a); destruct (split_on c_nl (a ++ b)); exact K.
Qed.

(** The list of candidates *)
Lemma print_comps_val : forall cw cols hl l i ix, i <= cols -> 0 < cols -> exists t, print_comps cw cols i ix hl l = Val t.
Proof.
  intros cw cols hl l. induction l as [|c l IH]; intros i ix Hi Hc; cbn [print_comps]; [eauto|].
  destruct (i =? cols) eqn:E.
  - destruct (IH 1 (S ix)) as [t Ht]; [lia|exact Hc|]. rewrite Ht. cbn [rbind]. eauto.
  - apply Nat.eqb_neq in E. destruct (cols <? i) eqn:E2; [apply Nat.ltb_lt in E2; lia|].
    destruct (IH (S i) (S ix)) as [t Ht]; [lia|exact Hc|]. rewrite Ht. cbn [rbind]. eauto.
Qed.
Lemma print_list_val : forall w comps i, exists t, print_completion_list w comps i = Val t.
Proof.
  intros w comps i. unfold print_completion_list, completion_cols. set (cw := 2 + _). set (cols := Nat.max 1 (w / cw)).
  destruct (print_comps_val cw cols i comps 0 0) as [t Ht]; [lia|apply Nat.lt_le_trans with 1; [lia|apply Nat.le_max_l]|].
  rewrite Ht. cbn [rbind]. eauto.
Qed.

(** The lines *)
Lemma ascii_clen : forall c, (c < 128)%N -> clen c = 1.
Proof. intros c H. unfold clen. apply N.ltb_lt in H. rewrite H. reflexivity. Qed.
Lemma bsplit_ascii : forall t n, Forall (fun c => (c < 128)%N) t -> n <= blen t -> exists a b, bsplit t n = Val (a, b).
Proof.
  induction t as [|c t IH]; intros n H Hn; destruct n; cbn [bsplit blen] in *; eauto; [lia|].
  inversion H; subst. rewrite ascii_clen in * by assumption. cbn [Nat.leb]. 
  destruct (IH (S n - 1)) as [a [b E]]; [assumption|lia|]. rewrite E. eauto.
Qed.
Lemma print_lines_ascii : forall srch f pw lines i n rem, Forall (Forall (fun c => (c < 128)%N)) lines ->
  exists t, print_lines srch f pw i n rem lines = Val t.
Proof.
  intros srch f pw lines. induction lines as [|line lines IH]; intros i n rem H; cbn [print_lines]; [eauto|].
  inversion H; subst. destruct (rem =? 0).
  { destruct (IH (S i) n 0) as [t E]; [assumption|]. rewrite E. cbn [rbind]. eauto. }
  destruct (rem <? blen line) eqn:El.
  - apply Nat.ltb_lt in El. destruct (bsplit_ascii line rem) as [a [b Eb]]; [assumption|lia|]. rewrite Eb. cbn [rbind].
    destruct (IH (S i) n 0) as [t E]; [assumption|]. rewrite E. cbn [rbind]. eauto.
  - destruct (IH (S i) n (rem - blen line)) as [t E]; [assumption|]. rewrite E. cbn [rbind]. eauto.
Qed.
Fixpoint total_bytes (lines : list text) : nat := match lines with [] => 0 | l :: r => blen l + total_bytes r end.
Lemma print_lines_own : forall srch f pw lines i n rem, rem = 0 \/ total_bytes lines <= rem ->
  exists t, print_lines srch f pw i n rem lines = Val t.
Proof.
  intros srch f pw lines. induction lines as [|line lines IH]; intros i n rem H; cbn [print_lines]; [eauto|].
  cbn [total_bytes] in H. destruct (rem =? 0) eqn:E0.
  { destruct (IH (S i) n 0) as [t E]; [auto|]. rewrite E. cbn [rbind]. eauto. }
  apply Nat.eqb_neq in E0. destruct (rem <? blen line) eqn:El; [apply Nat.ltb_lt in El; lia|].
  destruct (IH (S i) n (rem - blen line)) as [t E]; [right; lia|]. rewrite E. cbn [rbind]. eauto.
Qed.
Lemma split_bytes : forall t, total_bytes (split_on c_nl t) <= blen t.
Proof.
  induction t as [|c t IH]; cbn [split_on blen]; [cbn; lia|]. pose proof (clen_pos c). destruct (N.eqb c c_nl).
  - cbn [total_bytes blen]. lia.
  - destruct (split_on c_nl t) as [|x l]; cbn [total_bytes blen] in *; lia.
Qed.
Lemma split_forall : forall (P : char -> Prop) t, Forall P t -> Forall (Forall P) (split_on c_nl t).
Proof.
  intros P t H. induction H as [|c t Hc H IH]; cbn [split_on]; [repeat constructor|].
  destruct (N.eqb c c_nl); [constructor; [constructor|exact IH]|].
  destruct (split_on c_nl t) as [|x l]; [repeat constructor; assumption|].
  inversion IH; subst. constructor; [constructor; assumption|assumption].
Qed.

(** What [display_render] needs. *)
Lemma slice_to : forall (t : text) n, n <= length t -> slice t 0 n = Val (firstn n t).
Proof.
  intros t n H. unfold slice. cbn [Nat.leb]. apply Nat.leb_le in H. rewrite H. cbn [andb skipn]. rewrite Nat.sub_0_r. reflexivity.
Qed.
Definition own_lines (b : buffer) (g : option buffer) (show : bool) : list text :=
  match g with Some x => if show then buf_lines x else buf_lines b | None => buf_lines b end.
Definition upto (b : buffer) (g : option buffer) (c : nat) : text :=
  match g with Some x => if c <? num_chars x then firstn c (data x) else firstn c (data b) | None => firstn c (data b) end.
Definition whole (b : buffer) (g : option buffer) : text := match g with Some x => data x | None => data b end.

Lemma render_safe : forall U show tw w prompt rpw b s p, 0 < tw -> ed_cursor s <= num_chars b ->
  calc_width (if is_search s then rpw else last_prompt_line_width U prompt)
             (map (u_width U) (split_on c_nl (upto b (ed_sugg s) (ed_cursor s)))) tw
    <= calc_width (last_prompt_line_width U prompt) (map (u_width U) (split_on c_nl (whole b (ed_sugg s)))) tw ->
  (exists t, print_lines (is_search s) (ed_closure s) (last_prompt_line_width U prompt) 0
     (length (own_lines b (ed_sugg s) show)) (num_bytes b) (own_lines b (ed_sugg s) show) = Val t) ->
  display_render U show tw w prompt rpw b s = Pan p -> p = PU16.
Proof.
  intros U show tw w prompt rpw b s p Htw Hc Hcalc [tl Hl] H. unfold display_render in H.
  assert (Hw : forall x, BufferModel.buf_width U x = Val (map (u_width U) (split_on c_nl (data x)))).
  { intro x. unfold BufferModel.buf_width, range_width, buf_range. rewrite slice_to by (unfold num_chars; lia).
    unfold num_chars. rewrite firstn_all. reflexivity. }
  rewrite (Hw b) in H. cbn [rbind] in H.
  assert (H1 : match ed_sugg s with Some g => BufferModel.buf_width U g
      | None => Val (map (u_width U) (split_on c_nl (data b))) end = Val (map (u_width U) (split_on c_nl (whole b (ed_sugg s))))).
  { unfold whole. destruct (ed_sugg s); [apply Hw|reflexivity]. }
  rewrite H1 in H. cbn [rbind] in H.
  assert (H2 : match ed_sugg s with
         | Some g => if ed_cursor s <? num_chars g then range_width U g 0 (ed_cursor s)
                     else range_width U b 0 (ed_cursor s)
         | None => range_width U b 0 (ed_cursor s)
         end = Val (map (u_width U) (split_on c_nl (upto b (ed_sugg s) (ed_cursor s))))).
  { unfold upto, range_width, buf_range. destruct (ed_sugg s) as [g|].
    - destruct (ed_cursor s <? num_chars g) eqn:El.
      + apply Nat.ltb_lt in El. rewrite slice_to by (unfold num_chars in El; lia). reflexivity.
      + rewrite slice_to by exact Hc. reflexivity.
    - rewrite slice_to by exact Hc. reflexivity. }
  rewrite H2 in H. cbn [rbind] in H. clear H1 H2 Hw.
  destruct (1 <? ed_tcl s); [destruct (u16_of (ed_tcl s) =? 0)%N; [cbn [rbind] in H; congruence|]|]; cbn [rbind] in H.
  all: assert (Hh : exists t n, match ed_hint s with
         | Some (comps, i) =>
           rbind (print_completion_list w comps i) (fun '(t, l) => Val (t ++ [TCRLF], 1 + l))
         | None => Val ([], 0)
         end = Val (t, n)) by
    (destruct (ed_hint s) as [[comps i]|]; [|eauto]; destruct (print_list_val w comps i) as [[t n] ->]; cbn [rbind]; eauto).
  all: destruct Hh as [tc [nc Hh]]; rewrite Hh in H; cbn [rbind] in H.
  all: fold (own_lines b (ed_sugg s) show) in H; rewrite Hl in H; cbn [rbind] in H.
  all: match type of H with context [if ?x <? ?y then _ else if ?y <? ?x then _ else _] => 
         assert (Hle : x <= y) end.
  1,3: apply Nat.div_le_mono; [lia|]; apply Nat.add_le_mono_r; destruct (is_search s); exact Hcalc.
  all: match type of H with context [if ?x <? ?y then _ else if ?y <? ?x then _ else _] =>
         destruct (x <? y); [cbn [rbind] in H; discriminate|];
         destruct (y <? x) eqn:E2; [apply Nat.ltb_lt in E2; lia|cbn [rbind] in H; discriminate] end.
Qed.

(** * Buffers *)
Definition safe {S A} (m : M S A) (s : S) (Q : A -> S -> Prop) : Prop :=
  wp m s Q (fun _ _ => True) (fun p => p = PU16).
Lemma safe_bind : forall {S A B} (m : M S A) (k : A -> M S B) s Q,
  safe m s (fun a s' => safe (k a) s' Q) -> safe (bind m k) s Q.
Proof. intros. apply wp_bind. assumption. Qed.
Lemma safe_seq : forall {S A B} (m : M S A) (k : A -> M S B) s (R : A -> S -> Prop) Q,
  safe m s R -> (forall a s', R a s' -> safe (k a) s' Q) -> safe (bind m k) s Q.
Proof. intros S A B m k s R Q H HK. apply wp_bind. eapply wp_mono; [exact H|exact HK|auto|auto]. Qed.
Lemma safe_mono : forall {S A} (m : M S A) s (Q Q' : A -> S -> Prop),
  safe m s Q -> (forall a s', Q a s' -> Q' a s') -> safe m s Q'.
Proof. intros S A m s Q Q' H HQ. eapply wp_mono; [exact H|exact HQ|auto|auto]. Qed.
Lemma safe_liftr : forall {S A} (r : res A) a (s : S) (Q : A -> S -> Prop), r = Val a -> Q a s -> safe (liftr r) s Q.
Proof. intros S A r a s Q -> H. exact H. Qed.
Lemma safe_modify : forall {S} (f : S -> S) s (Q : unit -> S -> Prop), Q tt (f s) -> safe (modify f) s Q.
Proof. intros. exact H. Qed.

Section Safe.
  Context (ascii flat srch : bool) (Hfits : fits ascii flat srch).
  Notation okt := (ok_text ascii flat srch).
  Notation okc := (ok_char ascii flat srch).

  Lemma okt_app : forall a b, okt (a ++ b) <-> okt a /\ okt b.
  Proof. intros a b. apply Forall_app. Qed.
  Lemma okt_firstn : forall n t, okt t -> okt (firstn n t).
  Proof. intros n t H. rewrite <- (firstn_skipn n t) in H. apply okt_app in H. apply H. Qed.
  Lemma okt_skipn : forall n t, okt t -> okt (skipn n t).
  Proof. intros n t H. rewrite <- (firstn_skipn n t) in H. apply okt_app in H. apply H. Qed.

  Definition actok (a : action) : Prop :=
    match a with AInsert _ t | ARemove _ t => okt t | _ => True end.
  Definition bufok (b : buffer) : Prop :=
    okt (data b) /\ Forall actok (actions b) /\ Forall actok (undone b) /\ exists d0 d1, inv d0 d1 b.
  Lemma bufok_data : forall b, bufok b -> okt (data b).
  Proof. intros b H. apply H. Qed.
  Lemma bufok_of : forall t, okt t -> bufok (buf_of t).
  Proof. intros t H. split; [exact H|]. repeat split; try constructor. exists t, t. split; constructor. Qed.

  Lemma insert_from_ok : forall t st i d d', okt t -> okt d -> insert_raw_from st i t d = Val d' -> okt d'.
  Proof.
    induction t as [|c t IH]; intros st i d d' Ht Hd H; cbn [insert_raw_from] in H; [congruence|].
    inversion Ht; subst. unfold vec_insert in H. destruct (st + i <=? length d); [|discriminate]. cbn [rbind] in H.
    eapply IH; [|  |exact H]; [assumption|]. apply okt_app. split; [apply okt_firstn; assumption|].
    constructor; [assumption|apply okt_skipn; assumption].
  Qed.
  Lemma remove_raw_ok : forall a b d r d', okt d -> remove_raw a b d = Val (r, d') -> okt r /\ okt d'.
  Proof.
    intros a b d r d' Hd H. unfold remove_raw in H. destruct ((a <=? b) && (b <=? length d)); [|discriminate].
    injection H as <- <-. split; [apply okt_firstn, okt_skipn; assumption|].
    apply okt_app. split; [apply okt_firstn; assumption|apply okt_skipn; assumption].
  Qed.
  Lemma act_undo_ok : forall a d d', actok a -> okt d -> act_undo a d = Val d' -> okt d'.
  Proof.
    intros [st t|st t| |] d d' Ha Hd H; cbn [act_undo actok] in *; try congruence.
    - destruct (remove_raw st (st + length t) d) as [[r x]|] eqn:E; [|discriminate]. cbn in H. injection H as <-.
      eapply remove_raw_ok; eassumption.
    - eapply insert_from_ok; [exact Ha|exact Hd|exact H].
  Qed.
  Lemma act_do_ok : forall a d d', actok a -> okt d -> act_do a d = Val d' -> okt d'.
  Proof.
    intros [st t|st t| |] d d' Ha Hd H; cbn [act_do actok] in *; try congruence.
    - eapply insert_from_ok; [exact Ha|exact Hd|exact H].
    - destruct (remove_raw st (st + length t) d) as [[r x]|] eqn:E; [|discriminate]. cbn in H. injection H as <-.
      eapply remove_raw_ok; eassumption.
  Qed.
  Definition charsok (b : buffer) : Prop := okt (data b) /\ Forall actok (actions b) /\ Forall actok (undone b).
  Lemma undo_loop_ok : forall acts und d n c b, Forall actok acts -> Forall actok und -> okt d ->
    undo_loop acts und d n c = Val b -> charsok b.
  Proof.
    induction acts as [|a acts IH]; intros und d n c b Ha Hu Hd H; cbn [undo_loop] in H.
    - injection H as <-. repeat split; assumption.
    - inversion Ha; subst. destruct (act_undo a d) as [d'|] eqn:E; [|discriminate]. cbn [rbind] in H.
      assert (Hd' : okt d') by (eapply act_undo_ok; [|exact Hd|exact E]; assumption).
      destruct (match a with AEnd => ((n + 1)%Z, 0) | AStart => ((n - 1)%Z, c) | _ => (n, S c) end) as [n' c'].
      destruct (Z.eqb n' 0 && (0 <? c')).
      + injection H as <-. repeat split; cbn; auto.
      + eapply IH; [| | |exact H]; auto.
  Qed.
  Lemma redo_loop_ok : forall und acts d n c b, Forall actok acts -> Forall actok und -> okt d ->
    redo_loop und acts d n c = Val b -> charsok b.
  Proof.
    induction und as [|a und IH]; intros acts d n c b Ha Hu Hd H; cbn [redo_loop] in H.
    - injection H as <-. repeat split; assumption.
    - inversion Hu; subst. destruct (act_do a d) as [d'|] eqn:E; [|discriminate]. cbn [rbind] in H.
      assert (Hd' : okt d') by (eapply act_do_ok; [|exact Hd|exact E]; assumption).
      destruct (match a with AStart => ((n + 1)%Z, 0) | AEnd => ((n - 1)%Z, c) | _ => (n, S c) end) as [n' c'].
      destruct (Z.eqb n' 0 && (0 <? c')).
      + injection H as <-. repeat split; cbn; auto.
      + eapply IH; [| | |exact H]; auto.
  Qed.
  Lemma undo_chars : forall b r b', charsok b -> buf_undo b = Val (r, b') -> charsok b'.
  Proof.
    intros b r b' [H1 [H2 H3]] H. unfold buf_undo in H.
    destruct (undo_loop _ _ _ _ _) as [x|] eqn:E; [|discriminate]. cbn in H. injection H as _ <-.
    eapply undo_loop_ok; [| | |exact E]; assumption.
  Qed.
  Lemma revert_loop_chars : forall n b b', charsok b -> revert_loop n b = Some (Val b') -> charsok b'.
  Proof.
    induction n as [|n IH]; intros b b' Hb H; cbn [revert_loop] in H; [discriminate|].
    destruct (buf_undo b) as [[[] x]|] eqn:E; try discriminate.
    - eapply IH; [|exact H]. eapply undo_chars; eassumption.
    - injection H as <-. eapply undo_chars; eassumption.
  Qed.
  Definition good (r : res buffer) : Prop := exists b, r = Val b /\ bufok b.
  Definition goodp {A} (r : res (A * buffer)) : Prop := exists a b, r = Val (a, b) /\ bufok b.

  Lemma bufok_chars : forall b d0 d1, charsok b -> inv d0 d1 b -> bufok b.
  Proof. intros b d0 d1 [H1 [H2 H3]] H. repeat split; try assumption. exists d0, d1. exact H. Qed.
  Lemma undo_safe : forall b, bufok b -> goodp (buf_undo b).
  Proof.
    intros b [H1 [H2 [H3 [d0 [d1 H]]]]]. destruct (undo_inv b d0 d1 H) as [b' [E [I _]]]. exists (nonempty (actions b)), b'. split; [exact E|].
    eapply bufok_chars; [|exact I]. eapply undo_chars; [|exact E]. repeat split; assumption.
  Qed.
  Lemma redo_safe : forall b, bufok b -> goodp (buf_redo b).
  Proof.
    intros b [H1 [H2 [H3 [d0 [d1 H]]]]]. destruct (redo_inv b d0 d1 H) as [b' [E [I _]]]. exists (nonempty (undone b)), b'. split; [exact E|].
    eapply bufok_chars; [|exact I]. unfold buf_redo in E.
    destruct (redo_loop _ _ _ _ _) as [x|] eqn:E2; [|discriminate]. cbn in E. injection E as <-.
    eapply redo_loop_ok; [| | |exact E2]; assumption.
  Qed.
  Lemma revert_safe : forall b, bufok b -> goodp (buf_revert b).
  Proof.
    intros b Hb. pose proof Hb as [H1 [H2 [H3 [d0 [d1 H]]]]]. destruct (revert_inv b d0 d1 H) as [b' [E [I _]]].
    exists (nonempty (actions b)), b'. split; [exact E|]. eapply bufok_chars; [|exact I].
    unfold buf_revert, buf_revert_opt in E. destruct (actions b) as [|a l] eqn:Ea.
    - injection E as <-. repeat split; [assumption|rewrite Ea; constructor|assumption].
    - destruct (revert_loop _ b) as [[x|]|] eqn:E2; try discriminate. injection E as <-.
      eapply revert_loop_chars; [|exact E2]. repeat split; [assumption|rewrite Ea; assumption|assumption].
  Qed.
  Lemma edited_ok : forall b a d', bufok b -> astep a (data b) d' -> actok a -> okt d' ->
    bufok (mkBuf d' (a :: actions b) []).
  Proof.
    intros b a d' [H1 [H2 [H3 [d0 [d1 [HP HF]]]]]] Hs Ha Hd. split; [exact Hd|]. cbn [actions undone].
    split; [constructor; assumption|]. split; [constructor|]. exists d0, d'. apply inv_edit; assumption.
  Qed.
  Lemma insert_safe : forall b n t, bufok b -> okt t -> n <= length (data b) -> good (buf_insert b n t).
  Proof.
    intros b n t Hb Ht Hn. destruct (split2 (data b) n Hn) as (x & y & E & <-).
    eexists. split; [apply (insert_app b x y t E)|]. pose proof (bufok_data b Hb) as Hd. rewrite E in Hd.
    apply okt_app in Hd as [Hx Hy]. apply edited_ok; [exact Hb|rewrite E; constructor|exact Ht|].
    apply okt_app. split; [exact Hx|]. apply okt_app. auto.
  Qed.
  Lemma remove_safe : forall b m n, bufok b -> m <= n -> n <= length (data b) ->
    exists b', buf_remove b m n = Val (n - m, b') /\ bufok b' /\ data b' = firstn m (data b) ++ skipn n (data b).
  Proof.
    intros b m n Hb Hm Hn. destruct (split3 (data b) m n Hm Hn) as (x & y & z & E & L1 & L2).
    eexists. split; [|split].
    - rewrite <- L1, <- L2. rewrite (remove_app b x y z E). do 2 f_equal. lia.
    - pose proof (bufok_data b Hb) as Hd. rewrite E in Hd. apply okt_app in Hd as [Hx Hd]. apply okt_app in Hd as [Hy Hz].
      apply edited_ok; [exact Hb|rewrite E; constructor|exact Hy|]. apply okt_app. auto.
    - cbn [data]. rewrite E. subst m. rewrite firstn_app_eq by reflexivity. f_equal.
      rewrite app_assoc. rewrite skipn_app_eq; [reflexivity|]. rewrite app_length. lia.
  Qed.
  Lemma truncate_safe : forall b n, bufok b -> n <= length (data b) ->
    exists b', buf_truncate b n = Val b' /\ bufok b' /\ data b' = firstn n (data b).
  Proof.
    intros b n Hb Hn. unfold buf_truncate. destruct (remove_safe b n (length (data b)) Hb Hn (le_n _)) as [b' [-> [H1 H2]]].
    cbn [rbind]. exists b'. split; [reflexivity|]. split; [exact H1|]. rewrite H2, skipn_all, app_nil_r. reflexivity.
  Qed.
  Lemma copied_ok : forall b t, bufok b -> okt t -> bufok (copied b t).
  Proof.
    intros b t [H1 [H2 [H3 [d0 [d1 [HP HF]]]]]] Ht. split; [exact Ht|]. unfold copied. cbn [actions undone].
    split; [repeat constructor; assumption|]. split; [constructor|]. exists d0, t. split; [|constructor].
    cbn [actions data]. econstructor; [econstructor; [exact HP|]|].
    - pose proof (astep_remove [] (data b) []) as K. cbn [app length] in K. rewrite app_nil_r in K. exact K.
    - pose proof (astep_insert [] t []) as K. cbn [app length] in K. rewrite app_nil_r in K. exact K.
  Qed.
  Lemma extend_safe : forall b g r, bufok b -> okt (data g) -> data g = data b ++ r -> good (insert_from_buffer b g).
  Proof.
    intros b g r Hb Hg E. unfold insert_from_buffer, slice. rewrite Nat.leb_refl.
    assert (Hl : length (data b) <= length (data g)) by (rewrite E, app_length; lia).
    apply Nat.leb_le in Hl. rewrite Hl. cbn [andb rbind]. apply insert_safe; [exact Hb| |lia].
    apply okt_firstn, okt_skipn. exact Hg.
  Qed.
End Safe.
