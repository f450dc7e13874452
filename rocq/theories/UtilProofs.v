(** Proofs about src/util.rs, [get_buffer_words] and [CursorPosition]. *)
From Verif Require Import Base Utf8 BufferModel UtilModel UtilSpec Lemmas CompleteModel.

(** * Selection *)
Lemma selects_filter : forall {A} (P : A -> Prop) (f : A -> bool) l,
  (forall x, f x = true <-> P x) -> selects P l (filter f l).
Proof.
  intros A P f l H. induction l as [|x l IH]; simpl; [constructor|].
  destruct (f x) eqn:E; constructor; auto.
  - apply H. assumption.
  - rewrite <- H. congruence.
Qed.
Lemma selects_det : forall {A} (P : A -> Prop) l r1 r2, selects P l r1 -> selects P l r2 -> r1 = r2.
Proof.
  intros A P l r1 r2 H. revert r2. induction H; intros r2 H2; inversion H2; subst; try tauto.
  f_equal. auto.
  auto.
Qed.
Lemma selects_filter_iff : forall {A} (P : A -> Prop) (f : A -> bool) l r,
  (forall x, f x = true <-> P x) -> (filter f l = r <-> selects P l r).
Proof.
  intros A P f l r H. split.
  - intros <-. apply selects_filter. assumption.
  - intro S. eapply selects_det; [apply selects_filter|]; eassumption.
Qed.

Lemma prefixb_iff : forall p s, prefixb p s = true <-> is_prefix p s.
Proof.
  induction p as [|x p IH]; intro s; simpl.
  - split; [intros _; exists s; reflexivity|reflexivity].
  - destruct s as [|y s].
    + split; [discriminate|]. intros [r H]. discriminate.
    + rewrite andb_true_iff, N.eqb_eq, IH. split.
      * intros [-> [r ->]]. exists r. reflexivity.
      * intros [r H]. inversion H; subst. split; [reflexivity|exists r; reflexivity].
Qed.
Lemma basic_completions_iff : forall ws s r,
  basic_completions ws s = r <-> selects (is_prefix s) ws r.
Proof. intros. apply selects_filter_iff. apply prefixb_iff. Qed.

(** * Longest common prefix *)
Lemma is_prefix_len : forall p s, is_prefix p s -> length p <= length s.
Proof. intros p s [r ->]. rewrite app_length. lia. Qed.
Lemma is_prefix_firstn : forall p s, is_prefix p s <-> p = firstn (length p) s.
Proof.
  intros p s. split.
  - intros [r ->]. rewrite firstn_app_len. reflexivity.
  - intro H. exists (skipn (length p) s). rewrite H at 1. symmetry. apply firstn_skipn.
Qed.
Lemma shortest_spec : forall l best, let w := shortest best l in
  In w (best :: l) /\ (forall s, In s (best :: l) -> length w <= length s).
Proof.
  induction l as [|s l IH]; intro best; simpl.
  - split; [left; reflexivity|]. intros s [<-|[]]. apply le_n.
  - destruct (length s <? length best) eqn:E.
    + apply Nat.ltb_lt in E. destruct (IH s) as [H1 H2]. split.
      * destruct H1 as [H1|H1]; auto.
      * intros x [<-|[<-|Hx]].
        -- specialize (H2 s (or_introl eq_refl)). lia.
        -- apply H2. left. reflexivity.
        -- apply H2. right. assumption.
    + apply Nat.ltb_ge in E. destruct (IH best) as [H1 H2]. split.
      * destruct H1 as [H1|H1]; auto.
      * intros x [<-|[<-|Hx]].
        -- apply H2. left. reflexivity.
        -- specialize (H2 best (or_introl eq_refl)). lia.
        -- apply H2. right. assumption.
Qed.
Lemma common_firstn : forall l n w, forallb (prefixb (firstn n w)) l = true <-> common_prefix (firstn n w) l.
Proof.
  intros l n w. rewrite forallb_forall. unfold common_prefix.
  split; intros H s Hs; [apply prefixb_iff|apply prefixb_iff]; auto.
Qed.
Lemma lcp_loop_spec : forall n w l, n <= length w ->
  match lcp_loop n w l with
  | Some p => p <> [] /\ common_prefix p l /\ is_prefix p w /\
              (forall q, is_prefix q w -> length q <= n -> common_prefix q l -> length q <= length p)
  | None => forall q, is_prefix q w -> length q <= n -> common_prefix q l -> q = []
  end.
Proof.
  induction n as [|n IH]; intros w l Hn.
  - simpl. intros q _ H _. destruct q; [reflexivity|simpl in H; lia].
  - cbn [lcp_loop]. destruct (forallb (prefixb (firstn (S n) w)) l) eqn:E.
    + apply common_firstn in E. split; [|split; [assumption|split]].
      * destruct w; simpl in *; [lia|discriminate].
      * exists (skipn (S n) w). symmetry. apply firstn_skipn.
      * intros q _ Hq _. rewrite firstn_length. lia.
    + specialize (IH w l ltac:(lia)).
      assert (K : forall q, is_prefix q w -> length q <= S n -> common_prefix q l -> length q <= n).
      { intros q Hp Hq Hc. destruct (Nat.eq_dec (length q) (S n)) as [HS|HS]; [|lia].
        exfalso. apply is_prefix_firstn in Hp. rewrite HS in Hp. subst q.
        apply common_firstn in Hc. congruence. }
      destruct (lcp_loop n w l) as [p|].
      * destruct IH as (H1 & H2 & H3 & H4). repeat split; auto.
      * intros q Hp Hq Hc. apply IH; auto.
Qed.
Lemma flcp_spec : forall s0 s1 l,
  match find_longest_common_prefix (s0 :: s1 :: l) with
  | Some p => p <> [] /\ common_prefix p (s0 :: s1 :: l) /\
              (forall q, common_prefix q (s0 :: s1 :: l) -> length q <= length p)
  | None => forall q, common_prefix q (s0 :: s1 :: l) -> q = []
  end.
Proof.
  intros s0 s1 l. unfold find_longest_common_prefix.
  destruct (existsb (fun s => negb (nonempty s)) (s0 :: s1 :: l)) eqn:E.
  - apply existsb_exists in E as (s & Hs & E). apply negb_true_iff, nonempty_false in E. subst.
    intros q Hq. specialize (Hq [] Hs). apply is_prefix_len in Hq. destruct q; [reflexivity|simpl in Hq; lia].
  - clear E. destruct (shortest_spec (s1 :: l) s0) as [H1 H2].
    pose proof (lcp_loop_spec (length (shortest s0 (s1 :: l))) (shortest s0 (s1 :: l)) (s0 :: s1 :: l) (le_n _)) as H.
    destruct (lcp_loop _ _ _) as [p|].
    + destruct H as (P1 & P2 & P3 & P4). split; [assumption|]. split; [assumption|].
      intros q Hq. apply P4; [| |assumption].
      * apply Hq. assumption.
      * apply is_prefix_len. apply Hq. assumption.
    + intros q Hq. apply H; [| |assumption].
      * apply Hq. assumption.
      * apply is_prefix_len. apply Hq. assumption.
Qed.
Lemma common_prefix_unique : forall p q l s, In s l -> common_prefix p l -> common_prefix q l ->
  length p = length q -> p = q.
Proof.
  intros p q l s Hs Hp Hq HL. specialize (Hp s Hs). specialize (Hq s Hs).
  apply is_prefix_firstn in Hp. apply is_prefix_firstn in Hq. congruence.
Qed.
Lemma flcp_some : forall s0 s1 l p,
  find_longest_common_prefix (s0 :: s1 :: l) = Some p <->
  p <> [] /\ common_prefix p (s0 :: s1 :: l) /\
  (forall q, common_prefix q (s0 :: s1 :: l) -> length q <= length p).
Proof.
  intros s0 s1 l p. pose proof (flcp_spec s0 s1 l) as H. split.
  - intro E. rewrite E in H. exact H.
  - intros (H1 & H2 & H3). destruct (find_longest_common_prefix _) as [p'|].
    + destruct H as (P1 & P2 & P3). f_equal.
      apply (common_prefix_unique p' p (s0 :: s1 :: l) s0 (or_introl eq_refl)); auto.
      apply Nat.le_antisymm; auto.
    + exfalso. apply H1. apply H. assumption.
Qed.
Lemma flcp_none : forall s0 s1 l,
  find_longest_common_prefix (s0 :: s1 :: l) = None <->
  ~ (exists c, forall s, In s (s0 :: s1 :: l) -> exists r, s = c :: r).
Proof.
  intros s0 s1 l. pose proof (flcp_spec s0 s1 l) as H. split.
  - intros E [c Hc]. rewrite E in H. specialize (H [c]).
    assert (common_prefix [c] (s0 :: s1 :: l)) as HH.
    { intros s Hs. destruct (Hc s Hs) as [r ->]. exists r. reflexivity. }
    specialize (H HH). discriminate.
  - intro HN. destruct (find_longest_common_prefix _) as [p|]; [|reflexivity].
    exfalso. apply HN. destruct H as (P1 & P2 & _). destruct p as [|c p]; [congruence|].
    exists c. intros s Hs. destruct (P2 s Hs) as [r ->]. exists (p ++ r). reflexivity.
Qed.

(** * Escape sequences *)
Lemma is_ascii_alphabetic_iff : forall c, is_ascii_alphabetic c = true <-> letter c.
Proof.
  intro c. unfold is_ascii_alphabetic, letter.
  rewrite orb_true_iff, !andb_true_iff, !N.leb_le. tauto.
Qed.
Lemma strip_csi : forall p f t, (forall c, In c p -> ~ letter c) -> letter f ->
  strip_loop ACsi (p ++ f :: t) = strip_loop ANorm t.
Proof.
  induction p as [|c p IH]; intros f t Hp Hf; simpl.
  - apply is_ascii_alphabetic_iff in Hf. rewrite Hf. reflexivity.
  - destruct (is_ascii_alphabetic c) eqn:E.
    + apply is_ascii_alphabetic_iff in E. exfalso. apply (Hp c); [left; reflexivity|assumption].
    + apply IH; [|assumption]. intros; apply Hp; right; assumption.
Qed.
Lemma strip_csi_cut : forall p, (forall c, In c p -> ~ letter c) -> strip_loop ACsi p = [].
Proof.
  induction p as [|c p IH]; intros Hp; simpl; [reflexivity|].
  destruct (is_ascii_alphabetic c) eqn:E.
  - apply is_ascii_alphabetic_iff in E. exfalso. apply (Hp c); [left; reflexivity|assumption].
  - apply IH. intros; apply Hp; right; assumption.
Qed.
Lemma strip_osc : forall p t, ~ In c_bel p -> strip_loop AOsc (p ++ c_bel :: t) = strip_loop ANorm t.
Proof.
  induction p as [|c p IH]; intros t Hp; cbn [app strip_loop]; [reflexivity|].
  destruct (N.eqb c c_bel) eqn:E.
  - apply N.eqb_eq in E. exfalso. apply Hp. left. assumption.
  - apply IH. intro; apply Hp; right; assumption.
Qed.
Lemma strip_osc_cut : forall p, ~ In c_bel p -> strip_loop AOsc p = [].
Proof.
  induction p as [|c p IH]; intros Hp; cbn [strip_loop]; [reflexivity|].
  destruct (N.eqb c c_bel) eqn:E.
  - apply N.eqb_eq in E. exfalso. apply Hp. left. assumption.
  - apply IH. intro; apply Hp; right; assumption.
Qed.
Lemma stripped_strip : forall t o, stripped t o -> strip_loop ANorm t = o.
Proof.
  intros t o H. induction H as [|c t o Hc H IH|e t o He H IH|e He].
  - reflexivity.
  - cbn [strip_loop]. apply N.eqb_neq in Hc. rewrite Hc, IH. reflexivity.
  - destruct He as [p f Hp Hf|p Hp|c H1 H2].
    + change ((c_esc :: ch "[" :: p ++ [f]) ++ t) with (c_esc :: ch "[" :: ((p ++ [f]) ++ t)).
      rewrite <- app_assoc. cbn. rewrite strip_csi by assumption. assumption.
    + change ((c_esc :: ch "]" :: p ++ [c_bel]) ++ t) with (c_esc :: ch "]" :: ((p ++ [c_bel]) ++ t)).
      rewrite <- app_assoc. cbn. rewrite strip_osc by assumption. assumption.
    + cbn [app strip_loop]. rewrite N.eqb_refl. apply N.eqb_neq in H1. apply N.eqb_neq in H2.
      rewrite H1, H2. assumption.
  - destruct He as [|p Hp|p Hp]; cbn.
    + reflexivity.
    + apply strip_csi_cut. assumption.
    + apply strip_osc_cut. assumption.
Qed.
Lemma csi_split : forall t, (exists p f r, t = p ++ f :: r /\ (forall c, In c p -> ~ letter c) /\ letter f)
  \/ (forall c, In c t -> ~ letter c).
Proof.
  induction t as [|c t IH]; [right; simpl; tauto|].
  destruct (is_ascii_alphabetic c) eqn:E.
  - left. exists [], c, t. split; [reflexivity|]. split; [simpl; tauto|]. apply is_ascii_alphabetic_iff. assumption.
  - assert (Hc : ~ letter c) by (rewrite <- is_ascii_alphabetic_iff; congruence).
    destruct IH as [(p & f & r & -> & Hp & Hf)|H].
    + left. exists (c :: p), f, r. split; [reflexivity|]. split; [|assumption].
      intros x [<-|Hx]; auto.
    + right. intros x [<-|Hx]; auto.
Qed.
Lemma osc_split : forall t, (exists p r, t = p ++ c_bel :: r /\ ~ In c_bel p) \/ ~ In c_bel t.
Proof.
  intro t. destruct (in_dec N.eq_dec c_bel t) as [H|H]; [left|right; assumption].
  apply in_split in H as H'. clear H'.
  induction t as [|c t IH]; [destruct H|]. destruct (N.eq_dec c c_bel) as [->|Hc].
  - exists [], t. split; [reflexivity|simpl; tauto].
  - destruct H as [H|H]; [congruence|]. destruct (IH H) as (p & r & -> & Hp).
    exists (c :: p), r. split; [reflexivity|]. intros [E|E]; [congruence|tauto].
Qed.
Lemma stripped_total : forall n t, length t <= n -> exists o, stripped t o.
Proof.
  induction n as [|n IH]; intros t Hn.
  - destruct t; [|simpl in Hn; lia]. exists []. constructor.
  - destruct t as [|c t]; [exists []; constructor|]. simpl in Hn.
    destruct (N.eq_dec c c_esc) as [->|Hc].
    + destruct t as [|d t]; [exists []; constructor; constructor|]. simpl in Hn.
      destruct (N.eq_dec d (ch "[")) as [->|H1].
      * destruct (csi_split t) as [(p & f & r & -> & Hp & Hf)|H].
        -- destruct (IH r) as [o Ho]; [rewrite app_length in Hn; simpl in Hn; lia|].
           exists o. pose proof (st_seq _ r o (seq_csi p f Hp Hf) Ho) as HS.
           simpl in HS. rewrite <- app_assoc in HS. exact HS.
        -- exists []. constructor. constructor. assumption.
      * destruct (N.eq_dec d (ch "]")) as [->|H2].
        -- destruct (osc_split t) as [(p & r & -> & Hp)|H].
           ++ destruct (IH r) as [o Ho]; [rewrite app_length in Hn; simpl in Hn; lia|].
              exists o. pose proof (st_seq _ r o (seq_osc p Hp) Ho) as HS.
              simpl in HS. rewrite <- app_assoc in HS. exact HS.
           ++ exists []. constructor. constructor. assumption.
        -- destruct (IH t) as [o Ho]; [lia|]. exists o.
           exact (st_seq _ t o (seq_two d H1 H2) Ho).
    + destruct (IH t) as [o Ho]; [lia|]. exists (c :: o). constructor; assumption.
Qed.
Lemma stripped_noesc : forall t o, stripped t o -> ~ In c_esc o.
Proof.
  intros t o H. induction H; simpl; auto. intros [C|C]; [congruence|tauto].
Qed.
Lemma stripped_id : forall t, ~ In c_esc t -> stripped t t.
Proof.
  induction t as [|c t IH]; intro H; constructor.
  - intro; subst; apply H; left; reflexivity.
  - apply IH. intro; apply H; right; assumption.
Qed.
Lemma existsb_eqb_in : forall c t, existsb (N.eqb c) t = true <-> In c t.
Proof.
  intros c t. rewrite existsb_exists. split.
  - intros (x & Hx & E). apply N.eqb_eq in E. congruence.
  - intro H. exists c. split; [assumption|apply N.eqb_refl].
Qed.
Lemma remove_codes_strip : forall t, remove_codes t = strip_loop ANorm t.
Proof.
  intro t. unfold remove_codes. destruct (existsb (N.eqb c_esc) t) eqn:E; [reflexivity|].
  symmetry. apply stripped_strip. apply stripped_id. rewrite <- existsb_eqb_in. congruence.
Qed.
Lemma remove_codes_iff : forall t o, remove_codes t = o <-> stripped t o.
Proof.
  intros t o. rewrite remove_codes_strip. split.
  - intro H. destruct (stripped_total _ t (le_n _)) as [o' Ho]. apply stripped_strip in Ho as E. congruence.
  - apply stripped_strip.
Qed.
Lemma remove_codes_noesc : forall t, ~ In c_esc (remove_codes t).
Proof. intro t. apply (stripped_noesc t). apply remove_codes_iff. reflexivity. Qed.
Lemma remove_codes_id : forall t, ~ In c_esc t -> remove_codes t = t.
Proof. intros t H. apply remove_codes_iff. apply stripped_id. assumption. Qed.
Lemma remove_codes_idem : forall t, remove_codes (remove_codes t) = remove_codes t.
Proof. intro t. apply remove_codes_id. apply remove_codes_noesc. Qed.

Lemma handle_prompt_nonl : forall t, ~ In c_nl t -> handle_prompt t = t.
Proof.
  intros [|c t] H; [reflexivity|]. cbn [handle_prompt].
  destruct (existsb (N.eqb c_nl) t) eqn:E.
  - apply existsb_eqb_in in E. exfalso. apply H. right. assumption.
  - destruct (N.eqb c c_nl) eqn:E2; [|reflexivity].
    apply N.eqb_eq in E2. exfalso. apply H. left. assumption.
Qed.
Lemma handle_prompt_app : forall a l, ~ In c_nl l -> handle_prompt (a ++ c_nl :: l) = l.
Proof.
  induction a as [|c a IH]; intros l H; cbn [app handle_prompt].
  - destruct (existsb (N.eqb c_nl) l) eqn:E; [apply existsb_eqb_in in E; tauto|]. reflexivity.
  - assert (existsb (N.eqb c_nl) (a ++ c_nl :: l) = true) as ->.
    { apply existsb_eqb_in. apply in_or_app. right. left. reflexivity. }
    apply IH. assumption.
Qed.
Lemma last_line_exists : forall t, exists l, last_line t l.
Proof.
  induction t as [|c t IH].
  - exists []. split; [simpl; tauto|left; reflexivity].
  - destruct IH as (l & H1 & [->|[a ->]]).
    + destruct (N.eq_dec c c_nl) as [->|Hc].
      * exists l. split; [assumption|]. right. exists []. reflexivity.
      * exists (c :: l). split; [|left; reflexivity]. intros [C|C]; [congruence|tauto].
    + exists l. split; [assumption|]. right. exists (c :: a). reflexivity.
Qed.
Lemma last_line_handle : forall t l, last_line t l -> handle_prompt t = l.
Proof.
  intros t l (H & [->|[a ->]]); [apply handle_prompt_nonl|apply handle_prompt_app]; assumption.
Qed.
Lemma handle_prompt_iff : forall t l, handle_prompt t = l <-> last_line t l.
Proof.
  intros t l. split; [|apply last_line_handle].
  intro H. destruct (last_line_exists t) as [l' HL]. apply last_line_handle in HL as E. congruence.
Qed.
Lemma prompt_width_spec : forall U t l o, last_line t l -> stripped l o ->
  last_prompt_line_width U t = u_width U o.
Proof.
  intros U t l o H1 H2. unfold last_prompt_line_width. apply handle_prompt_iff in H1.
  apply remove_codes_iff in H2. congruence.
Qed.

(** * Words *)
Lemma nth_error_mid : forall {A} (a : list A) x b, nth_error (a ++ x :: b) (length a) = Some x.
Proof. intros. rewrite nth_error_app2, Nat.sub_diag; [reflexivity|apply le_n]. Qed.

Definition apart_from (n : nat) (l : list (nat * nat)) : Prop :=
  apart l /\ match l with [] => True | (s, _) :: _ => n <= s end.
Lemma apart_add : forall s e l, s < e -> apart_from (S e) l -> apart ((s, e) :: l).
Proof.
  intros s e [|[s' e'] l] H [H1 H2]; constructor; auto.
Qed.

(** The word under construction: starts at [st], nothing closes it before [i]. *)
Definition open_word (t : text) (st i : nat) : Prop :=
  st < i /\ (exists c, nth_error t st = Some c /\ c <> c_sp /\ c <> c_bs) /\
  (forall j, st < j < i -> nth_error t j = Some c_sp -> nth_error t (j - 1) = Some c_bs).

Lemma words_loop_spec : forall rest pre ws bs,
  let t := pre ++ rest in
  let W := words_loop (length pre) ws bs rest in
  (bs = true <-> 0 < length pre /\ nth_error t (length pre - 1) = Some c_bs) ->
  (forall st, ws = Some st -> open_word t st (length pre)) ->
  Forall (word_ok t) W /\
  apart_from (match ws with Some st => st | None => length pre end) W /\
  (match ws with Some st => exists e W', W = (st, e) :: W' /\ length pre <= e | None => True end) /\
  (forall i c, (match ws with Some st => st | None => length pre end) <= i ->
     nth_error t i = Some c -> ~ covered W i -> c = c_sp \/ c = c_bs).
Proof.
  induction rest as [|c rest IH]; intros pre ws bs t W Hbs Hws.
  - subst W. cbn [words_loop]. subst t. rewrite app_nil_r in *. destruct ws as [st|].
    + destruct (Hws st eq_refl) as (H1 & H2 & H3). split; [|split; [|split]].
      * constructor; [|constructor]. simpl. repeat split; auto.
      * split; [constructor; assumption|apply le_n].
      * exists (length pre), []. split; [reflexivity|apply le_n].
      * intros i c Hi Hn Hc. exfalso. apply Hc. exists st, (length pre).
        split; [left; reflexivity|]. split; [assumption|]. apply nth_error_Some. congruence.
    + split; [constructor|]. split; [split; [constructor|exact I]|]. split; [exact I|].
      intros i c Hi Hn _. assert (i < length pre) by (apply nth_error_Some; congruence). lia.
  - assert (Et : t = (pre ++ [c]) ++ rest) by (subst t; rewrite <- app_assoc; reflexivity).
    assert (El : length (pre ++ [c]) = S (length pre)) by (rewrite app_length; simpl; lia).
    assert (Hc : nth_error t (length pre) = Some c) by (subst t; apply nth_error_mid).
    subst W. cbn [words_loop]. destruct (N.eqb c c_bs) eqn:Eb.
    + apply N.eqb_eq in Eb. subst c.
      specialize (IH (pre ++ [c_bs]) ws true). rewrite El, <- Et in IH. cbv zeta in IH.
      destruct IH as (I1 & I2 & I3 & I4).
      * split; [|reflexivity]. intros _. split; [lia|].
        replace (S (length pre) - 1) with (length pre) by lia. assumption.
      * intros st Hst. destruct (Hws st Hst) as (H1 & H2 & H3). repeat split; auto.
        intros j Hj Hsp. destruct (Nat.eq_dec j (length pre)) as [->|Hne]; [rewrite Hc in Hsp; discriminate Hsp|].
        apply H3; [lia|assumption].
      * split; [assumption|]. destruct ws as [st|].
        -- split; [assumption|]. destruct I3 as (e & W' & E & He). split; [exists e, W'; split; [assumption|lia]|].
           assumption.
        -- split; [|split; [exact I|]].
           ++ destruct I2 as [A B]. split; [assumption|].
              destruct (words_loop _ _ _ _) as [|[s e] l]; [exact I|lia].
           ++ intros i x Hi Hx Hcov. destruct (Nat.eq_dec i (length pre)) as [->|Hne].
              ** right. congruence.
              ** apply (I4 i x); auto. lia.
    + apply N.eqb_neq in Eb. destruct ws as [st|].
      * destruct (Hws st eq_refl) as (H1 & H2 & H3).
        destruct (N.eqb c c_sp && negb bs) eqn:Es.
        -- apply andb_true_iff in Es as [Ec En]. apply N.eqb_eq in Ec. subst c.
           apply negb_true_iff in En.
           specialize (IH (pre ++ [c_sp]) None false). rewrite El, <- Et in IH. cbv zeta in IH.
           destruct IH as (I1 & I2 & _ & I4).
           { split; [discriminate|]. intros [_ C].
             replace (S (length pre) - 1) with (length pre) in C by lia. rewrite Hc in C. discriminate. }
           { discriminate. }
           assert (Hlen : length pre < length t) by (apply nth_error_Some; congruence).
           split; [|split; [|split]].
           ++ constructor; [|assumption]. simpl. repeat split; auto; try lia. right.
              split; [assumption|]. intro C. assert (bs = true) by (apply Hbs; split; [lia|assumption]). congruence.
           ++ split; [apply apart_add; [assumption|]|simpl; apply le_n]. exact I2.
           ++ eexists _, _. split; [reflexivity|apply le_n].
           ++ intros i x Hi Hx Hcov.
              destruct (Nat.lt_ge_cases i (length pre)) as [Hlt|Hge].
              ** exfalso. apply Hcov. exists st, (length pre). split; [left; reflexivity|lia].
              ** destruct (Nat.eq_dec i (length pre)) as [->|Hne]; [left; congruence|].
                 apply (I4 i x); [lia|assumption|]. intros (s & e & Hin & Hr). apply Hcov.
                 exists s, e. split; [right; assumption|assumption].
        -- specialize (IH (pre ++ [c]) (Some st) false). rewrite El, <- Et in IH. cbv zeta in IH.
           destruct IH as (I1 & I2 & I3 & I4).
           { split; [discriminate|]. intros [_ C].
             replace (S (length pre) - 1) with (length pre) in C by lia. rewrite Hc in C. congruence. }
           { intros st' Hst. inversion Hst; subst st'. repeat split; auto.
             intros j Hj Hsp. destruct (Nat.eq_dec j (length pre)) as [->|Hne]; [|apply H3; [lia|assumption]].
             assert (c = c_sp) by congruence. subst c. rewrite N.eqb_refl in Es. simpl in Es.
             apply negb_false_iff in Es. apply Hbs in Es. tauto. }
           split; [assumption|]. split; [assumption|]. split; [|assumption].
           destruct I3 as (e & W' & E & He). exists e, W'. split; [assumption|lia].
      * destruct (negb (N.eqb c c_sp)) eqn:Es.
        -- apply negb_true_iff, N.eqb_neq in Es.
           specialize (IH (pre ++ [c]) (Some (length pre)) false). rewrite El, <- Et in IH. cbv zeta in IH.
           destruct IH as (I1 & I2 & I3 & I4).
           { split; [discriminate|]. intros [_ C].
             replace (S (length pre) - 1) with (length pre) in C by lia. rewrite Hc in C. congruence. }
           { intros st' Hst. inversion Hst; subst st'. split; [lia|]. split; [eauto|]. intros j Hj. lia. }
           split; [assumption|]. split; [assumption|]. split; [exact I|assumption].
        -- apply negb_false_iff, N.eqb_eq in Es. subst c.
           specialize (IH (pre ++ [c_sp]) None false). rewrite El, <- Et in IH. cbv zeta in IH.
           destruct IH as (I1 & I2 & _ & I4).
           { split; [discriminate|]. intros [_ C].
             replace (S (length pre) - 1) with (length pre) in C by lia. rewrite Hc in C. discriminate. }
           { discriminate. }
           split; [assumption|]. split; [|split; [exact I|]].
           ++ destruct I2 as [A B]. split; [assumption|].
              destruct (words_loop _ _ _ _) as [|[s e] l]; [exact I|lia].
           ++ intros i x Hi Hx Hcov. destruct (Nat.eq_dec i (length pre)) as [->|Hne].
              ** left. congruence.
              ** apply (I4 i x); auto. lia.
Qed.
Lemma get_buffer_words_ok : forall t, words_of t (get_buffer_words t).
Proof.
  intro t. unfold get_buffer_words.
  destruct (words_loop_spec t [] None false) as (H1 & [H2 _] & _ & H4).
  - split; [discriminate|]. intros [H _]. simpl in H. lia.
  - discriminate.
  - split; [assumption|]. split; [assumption|]. intros i c Hi Hc. apply (H4 i c); auto. simpl. lia.
Qed.

(** * Cursor classification *)
Definition class_is (p : cpos) : class :=
  match p with
  | InWord i => CInside i | OnWordLeftEdge i => CStart i
  | OnWordRightEdge i => CEnd i | InSpace l r => CBetween l r
  end.
Lemma inc_tail : forall w l, increasing (w :: l) -> increasing l.
Proof. intros w l H. inversion H; subst; [constructor|assumption]. Qed.
Lemma inc_pos : forall ws, increasing ws -> forall i s e, nth_error ws i = Some (s, e) -> s < e.
Proof.
  intros ws H. induction H; intros [|i] a b E; simpl in E; try discriminate.
  - inversion E; subst. assumption.
  - destruct i; discriminate.
  - inversion E; subst. assumption.
  - eapply IHincreasing. exact E.
Qed.
Lemma inc_lt : forall ws, increasing ws -> forall i j s e s' e', i < j ->
  nth_error ws i = Some (s, e) -> nth_error ws j = Some (s', e') -> e <= s'.
Proof.
  intros ws H. induction H as [|s0 e0 H|s0 e0 s1 e1 l H H' HI IH]; intros i j s e s' e' Hij Ei Ej.
  - destruct i; discriminate.
  - destruct j as [|[|j]]; simpl in Ej; [lia|discriminate|discriminate].
  - destruct j as [|j]; [lia|]. simpl in Ej. destruct i as [|i].
    + simpl in Ei. inversion Ei; subst. destruct j as [|j].
      * simpl in Ej. inversion Ej; subst. assumption.
      * specialize (IH 0 (S j) s1 e1 s' e' ltac:(lia) eq_refl Ej).
        pose proof (inc_pos _ HI 0 s1 e1 eq_refl). lia.
    + apply (IH i j s e s' e'); [lia|assumption|assumption].
Qed.
Lemma apart_inc : forall ws, apart ws -> increasing ws.
Proof. intros ws H. induction H; constructor; auto. lia. Qed.
Lemma apart_lt : forall ws, apart ws -> forall i j s e s' e', i < j ->
  nth_error ws i = Some (s, e) -> nth_error ws j = Some (s', e') -> e < s'.
Proof.
  intros ws H. induction H as [|s0 e0 H|s0 e0 s1 e1 l H H' HI IH]; intros i j s e s' e' Hij Ei Ej.
  - destruct i; discriminate.
  - destruct j as [|[|j]]; simpl in Ej; [lia|discriminate|discriminate].
  - destruct j as [|j]; [lia|]. simpl in Ej. destruct i as [|i].
    + simpl in Ei. inversion Ei; subst. destruct j as [|j].
      * simpl in Ej. inversion Ej; subst. assumption.
      * specialize (IH 0 (S j) s1 e1 s' e' ltac:(lia) eq_refl Ej).
        pose proof (inc_pos _ (apart_inc _ HI) 0 s1 e1 eq_refl). lia.
    + apply (IH i j s e s' e'); [lia|assumption|assumption].
Qed.

(** Two words that both hold the cursor (in the given sense) are the same. *)
Ltac same ws H i j :=
  let L := fresh in
  destruct (lt_eq_lt_dec i j) as [[L|L]|L];
  [exfalso|subst|exfalso];
  repeat match goal with
  | A : nth_error ws ?a = Some (?s, ?e) |- _ =>
    lazymatch goal with
    | _ : s < e |- _ => fail
    | _ => pose proof (inc_pos ws H a s e A)
    end
  end;
  [match goal with
   | A : nth_error ws i = Some (?s, ?e), B : nth_error ws j = Some (?s', ?e') |- _ =>
     pose proof (inc_lt ws H i j s e s' e' L A B); lia
   end| |
   match goal with
   | A : nth_error ws j = Some (?s, ?e), B : nth_error ws i = Some (?s', ?e') |- _ =>
     pose proof (inc_lt ws H j i s e s' e' L A B); lia
   end].

Lemma nearest_left_unique : forall ws c o o', nearest_left ws c o -> nearest_left ws c o' -> o = o'.
Proof.
  intros ws c [i|] [j|] H H'; simpl in *; auto.
  - destruct H as [(s & e & Hi & He) H1]. destruct H' as [(s' & e' & Hj & He') H1'].
    destruct (lt_eq_lt_dec i j) as [[L|L]|L].
    + specialize (H1 _ _ _ L Hj). lia.
    + congruence.
    + specialize (H1' _ _ _ L Hi). lia.
  - destruct H as [(s & e & Hi & He) H1]. specialize (H' _ _ _ Hi). lia.
  - destruct H' as [(s & e & Hi & He) H1]. specialize (H _ _ _ Hi). lia.
Qed.
Lemma nearest_right_unique : forall ws c o o', nearest_right ws c o -> nearest_right ws c o' -> o = o'.
Proof.
  intros ws c [i|] [j|] H H'; simpl in *; auto.
  - destruct H as [(s & e & Hi & He) H1]. destruct H' as [(s' & e' & Hj & He') H1'].
    destruct (lt_eq_lt_dec i j) as [[L|L]|L].
    + specialize (H1' _ _ _ L Hi). lia.
    + congruence.
    + specialize (H1 _ _ _ L Hj). lia.
  - destruct H as [(s & e & Hi & He) H1]. specialize (H' _ _ _ Hi). lia.
  - destruct H' as [(s & e & Hi & He) H1]. specialize (H _ _ _ Hi). lia.
Qed.

Lemma class_of_unique : forall ws c k k', increasing ws -> class_of ws c k -> class_of ws c k' -> k = k'.
Proof.
  assert (S : forall ws c k k', increasing ws -> class_of ws c k -> class_of ws c k' ->
    match k, k' with
    | CInside i, CInside j => i = j | CStart i, CStart j => i = j | CEnd i, CEnd j => i = j
    | CBetween l r, CBetween l' r' => l = l' /\ r = r'
    | CInside _, (CStart _ | CEnd _ | CBetween _ _) => False
    | CStart _, (CEnd _ | CBetween _ _) => False
    | CEnd _, CBetween _ _ => False
    | _, _ => True end).
  { intros ws c k k' HI H H'. destruct k as [i|i|i|l r], k' as [j|j|j|l' r']; simpl in H, H'; auto.
    - destruct H as (s & e & H & Hc), H' as (s' & e' & H' & Hc').
      same ws HI i j. reflexivity.
    - destruct H as (s & e & H & Hc), H' as ((e' & H') & Hc').
      same ws HI i j. rewrite H in H'. inversion H'. subst. lia.
    - destruct H as (s & e & H & Hc), H' as (s' & H').
      same ws HI i j. rewrite H in H'. inversion H'. subst. lia.
    - destruct H' as (_ & _ & H'). destruct (H' i) as (X & Y & Z). tauto.
    - destruct H as ((e & H) & _), H' as ((e' & H') & _). same ws HI i j. reflexivity.
    - destruct H as (_ & H). apply (H j). assumption.
    - destruct H' as (_ & _ & H'). destruct (H' i) as (X & _ & _). apply X. tauto.
    - destruct H as (s & H), H' as (s' & H'). same ws HI i j. reflexivity.
    - destruct H' as (_ & _ & H'). destruct (H' i) as (X & Y & Z). tauto.
    - destruct H as (H1 & H2 & _), H' as (H1' & H2' & _). split.
      + eapply nearest_left_unique; eassumption.
      + eapply nearest_right_unique; eassumption. }
  intros ws c k k' HI H H'. pose proof (S ws c k k' HI H H') as A. pose proof (S ws c k' k HI H' H) as B.
  destruct k, k'; try contradiction; try congruence. destruct A; congruence.
Qed.

Lemma nth_split_cases : forall {A} (pre : list A) x rest j y, nth_error (pre ++ x :: rest) j = Some y ->
  (j < length pre /\ nth_error pre j = Some y) \/ (j = length pre /\ y = x) \/
  (length pre < j).
Proof.
  intros A pre x rest j y H. destruct (lt_eq_lt_dec j (length pre)) as [[L|L]|L]; auto.
  - left. rewrite nth_error_app1 in H by assumption. auto.
  - right. left. subst. rewrite nth_error_mid in H. inversion H. auto.
Qed.

Lemma cpos_loop_ok : forall rest pre c, increasing (pre ++ rest) ->
  (forall j s e, nth_error pre j = Some (s, e) -> e < c) ->
  (pre = [] -> match rest with [] => False | (s, _) :: _ => s < c end) ->
  exists p, cpos_loop c (length pre) rest = Val p /\ class_of (pre ++ rest) c (class_is p).
Proof.
  induction rest as [|[s e] rest IH]; intros pre c HI Hpre H0; cbn [cpos_loop].
  - destruct pre as [|w pre]; [exfalso; auto|].
    unfold sub_chk. simpl length. simpl Nat.leb. cbn iota. eexists. split; [reflexivity|].
    rewrite app_nil_r in *. replace (S (length pre) - 1) with (length pre) by lia.
    cbn [class_is class_of]. split; [|split].
    + split.
      * destruct (nth_error (w :: pre) (length pre)) as [[s e]|] eqn:E.
        -- exists s, e. split; [reflexivity|]. eapply Hpre. exact E.
        -- apply nth_error_None in E. simpl in E. lia.
      * intros j s e Hj E. assert (j < length (w :: pre)) by (apply nth_error_Some; congruence).
        simpl in H. lia.
    + intros i s e E. specialize (Hpre _ _ _ E). pose proof (inc_pos _ HI _ _ _ E). lia.
    + intro i. repeat split.
      * intros [e E]. specialize (Hpre _ _ _ E). pose proof (inc_pos _ HI _ _ _ E). lia.
      * intros [s E]. specialize (Hpre _ _ _ E). lia.
      * intros (s & e & E & Hc). specialize (Hpre _ _ _ E). lia.
  - pose proof (nth_error_mid pre (s, e) rest) as Hmid.
    pose proof (inc_pos _ HI _ _ _ Hmid) as Hse.
    destruct (s =? c) eqn:E1.
    { apply Nat.eqb_eq in E1. subst c. eexists. split; [reflexivity|]. cbn [class_is class_of]. split.
      - exists e. assumption.
      - intros j [s' E]. destruct (nth_split_cases _ _ _ _ _ E) as [[L E']|[[L E']|L]].
        + specialize (Hpre _ _ _ E'). lia.
        + inversion E'. lia.
        + pose proof (inc_lt _ HI _ _ _ _ _ _ L Hmid E).
          pose proof (inc_pos _ HI _ _ _ E). lia. }
    destruct (e =? c) eqn:E2.
    { apply Nat.eqb_eq in E2. subst c. eexists. split; [reflexivity|]. exists s. assumption. }
    apply Nat.eqb_neq in E1. apply Nat.eqb_neq in E2.
    destruct ((s <? c) && (c <? e)) eqn:E3.
    { apply andb_true_iff in E3 as [E3 E4]. apply Nat.ltb_lt in E3. apply Nat.ltb_lt in E4.
      eexists. split; [reflexivity|]. exists s, e. split; [assumption|lia]. }
    destruct (c <? s) eqn:E4.
    { apply Nat.ltb_lt in E4. destruct pre as [|w pre]; [specialize (H0 eq_refl); lia|].
      unfold sub_chk. simpl length. simpl Nat.leb. cbn iota. eexists. split; [reflexivity|].
      replace (S (length pre) - 1) with (length pre) by lia.
      cbn [class_is class_of].
      assert (Hafter : forall j s' e', length (w :: pre) <= j -> nth_error ((w :: pre) ++ (s, e) :: rest) j = Some (s', e') -> c < s').
      { intros j s' e' Hj E. destruct (Nat.eq_dec j (length (w :: pre))) as [->|Hne].
        - rewrite Hmid in E. inversion E; subst. assumption.
        - assert (Hlt : length (w :: pre) < j) by lia.
          pose proof (inc_lt _ HI _ _ _ _ _ _ Hlt Hmid E). lia. }
      assert (Hbefore : forall j s' e', j < length (w :: pre) -> nth_error ((w :: pre) ++ (s, e) :: rest) j = Some (s', e') -> e' < c).
      { intros j s' e' Hj E. rewrite nth_error_app1 in E by assumption. eapply Hpre. exact E. }
      split; [|split].
      - split.
        + destruct (nth_error ((w :: pre) ++ (s, e) :: rest) (length pre)) as [[s' e']|] eqn:E.
          * exists s', e'. split; [reflexivity|]. eapply Hbefore; [|exact E]. simpl. lia.
          * apply nth_error_None in E. rewrite app_length in E. simpl in E. lia.
        + intros j s' e' Hj E. assert (length (w :: pre) <= j) by (simpl; lia).
          pose proof (Hafter _ _ _ H E). pose proof (inc_pos _ HI _ _ _ E). lia.
      - split.
        + exists s, e. split; [exact Hmid|assumption].
        + intros j s' e' Hj E. pose proof (Hbefore _ _ _ Hj E). pose proof (inc_pos _ HI _ _ _ E). lia.
      - intro i.
        assert (D : forall s' e', nth_error ((w :: pre) ++ (s, e) :: rest) i = Some (s', e') -> e' < c \/ c < s').
        { intros s' e' E. destruct (Nat.lt_ge_cases i (length (w :: pre))) as [L|L].
          - left. eapply Hbefore; eassumption.
          - right. eapply Hafter; eassumption. }
        repeat split.
        + intros [e' E]. pose proof (inc_pos _ HI _ _ _ E). apply D in E. lia.
        + intros [s' E]. pose proof (inc_pos _ HI _ _ _ E). apply D in E. lia.
        + intros (s' & e' & E & Hc). apply D in E. lia. }
    apply Nat.ltb_ge in E4.
    assert (Ehc : e < c).
    { destruct (Nat.lt_ge_cases c e) as [L|L]; [|lia].
      assert (s <? c = true) by (apply Nat.ltb_lt; lia). assert (c <? e = true) by (apply Nat.ltb_lt; lia).
      rewrite H, H1 in E3. discriminate. }
    specialize (IH (pre ++ [(s, e)]) c).
    rewrite <- app_assoc in IH. cbn [app] in IH. rewrite app_length in IH. simpl length in IH.
    replace (length pre + 1) with (S (length pre)) in IH by lia. apply IH.
    + assumption.
    + intros j s' e' E. destruct (nth_split_cases _ _ _ _ _ E) as [[L E']|[[L E']|L]].
      * eapply Hpre; eassumption.
      * inversion E'. subst. assumption.
      * assert (j < length (pre ++ [(s, e)])) by (apply nth_error_Some; congruence).
        rewrite app_length in H. simpl in H. lia.
    + intro C. destruct pre; discriminate.
Qed.

Lemma cpos_get_ok : forall ws c, increasing ws ->
  exists p, cpos_get c ws = Val p /\ class_of ws c (class_is p).
Proof.
  intros [|[s e] ws] c HI; unfold cpos_get.
  - eexists. split; [reflexivity|]. simpl. repeat split.
    + intros i s e H. destruct i; discriminate.
    + intros i s e H. destruct i; discriminate.
    + intros [e H]. destruct i; discriminate.
    + intros [e H]. destruct i; discriminate.
    + intros (s & e & H & _). destruct i; discriminate.
  - pose proof (inc_pos _ HI 0 s e eq_refl) as Hse.
    assert (HA : forall j s' e', nth_error ((s, e) :: ws) j = Some (s', e') -> s <= s').
    { intros j s' e' E. destruct j as [|j]; [inversion E; lia|].
      pose proof (inc_lt _ HI 0 (S j) s e s' e' ltac:(lia) eq_refl E). lia. }
    destruct (c =? s) eqn:E1.
    + apply Nat.eqb_eq in E1. subst c. eexists. split; [reflexivity|]. split.
      * exists e. reflexivity.
      * intros j [s' E]. pose proof (HA _ _ _ E). pose proof (inc_pos _ HI _ _ _ E). lia.
    + apply Nat.eqb_neq in E1. destruct (c <? s) eqn:E2.
      * apply Nat.ltb_lt in E2. eexists. split; [reflexivity|]. cbn [class_is class_of]. split; [|split].
        -- intros i s' e' E. pose proof (HA _ _ _ E). pose proof (inc_pos _ HI _ _ _ E). lia.
        -- split; [exists s, e; split; [reflexivity|assumption]|]. intros; lia.
        -- intro i. repeat split.
           ++ intros [e' E]. pose proof (HA _ _ _ E). lia.
           ++ intros [s' E]. pose proof (HA _ _ _ E). pose proof (inc_pos _ HI _ _ _ E). lia.
           ++ intros (s' & e' & E & Hc). pose proof (HA _ _ _ E). lia.
      * apply Nat.ltb_ge in E2. apply (cpos_loop_ok ((s, e) :: ws) [] c HI).
        -- intros j s' e' E. destruct j; discriminate.
        -- intros _. lia.
Qed.
Lemma cpos_get_iff : forall ws c p, increasing ws ->
  (cpos_get c ws = Val p <-> class_of ws c (class_is p)).
Proof.
  intros ws c p HI. destruct (cpos_get_ok ws c HI) as (q & E & H). split.
  - intro E'. congruence.
  - intro H'. pose proof (class_of_unique _ _ _ _ HI H H') as EQ. rewrite E. f_equal.
    destruct p, q; simpl in EQ; congruence.
Qed.

Definition cpos_valid (n : nat) (p : cpos) : Prop :=
  match p with
  | InWord i | OnWordLeftEdge i | OnWordRightEdge i => i < n
  | InSpace l r => (forall i, l = Some i -> i < n) /\ (forall i, r = Some i -> i < n)
  end.
Lemma cpos_loop_valid : forall ws c i, (i = 0 -> match ws with [] => False | (s, _) :: _ => s < c end) ->
  exists p, cpos_loop c i ws = Val p /\ cpos_valid (i + length ws) p.
Proof.
  induction ws as [|[s e] ws IH]; intros c i H0; cbn [cpos_loop].
  - destruct i; [exfalso; auto|]. unfold sub_chk. simpl Nat.leb. cbn iota. eexists. split; [reflexivity|].
    simpl. split; intros j E; inversion E; lia.
  - destruct (s =? c) eqn:E1; [eexists; split; [reflexivity|]; simpl; lia|].
    destruct (e =? c) eqn:E2; [eexists; split; [reflexivity|]; simpl; lia|].
    destruct ((s <? c) && (c <? e)) eqn:E3; [eexists; split; [reflexivity|]; simpl; lia|].
    destruct (c <? s) eqn:E4.
    + apply Nat.ltb_lt in E4. destruct i; [specialize (H0 eq_refl); lia|].
      unfold sub_chk. simpl Nat.leb. cbn iota. eexists. split; [reflexivity|].
      simpl. split; intros j E; inversion E; lia.
    + destruct (IH c (S i)) as (p & E & V); [discriminate|]. exists p. split; [assumption|].
      simpl length. replace (i + S (length ws)) with (S i + length ws) by lia. assumption.
Qed.
Lemma cpos_get_valid : forall ws c, exists p, cpos_get c ws = Val p /\ cpos_valid (length ws) p.
Proof.
  intros [|[s e] ws] c; unfold cpos_get.
  - eexists. split; [reflexivity|]. simpl. split; discriminate.
  - destruct (c =? s) eqn:E1; [eexists; split; [reflexivity|]; simpl; lia|].
    destruct (c <? s) eqn:E2; [eexists; split; [reflexivity|]; simpl; split; intros i E; inversion E; lia|].
    apply Nat.eqb_neq in E1. apply Nat.ltb_ge in E2.
    apply (cpos_loop_valid ((s, e) :: ws) c 0). intros _. lia.
Qed.
Lemma apart_class : forall ws c i, apart ws -> (class_of ws c (CStart i) <-> at_start ws c i).
Proof.
  intros ws c i HA. simpl. split; [tauto|]. intros [e H]. split; [exists e; assumption|].
  intros j [s H']. pose proof (apart_inc _ HA) as HI.
  pose proof (inc_pos _ HI _ _ _ H). pose proof (inc_pos _ HI _ _ _ H').
  destruct (lt_eq_lt_dec i j) as [[L|L]|L].
  - pose proof (apart_lt _ HA _ _ _ _ _ _ L H H'). lia.
  - subst. rewrite H in H'. inversion H'; subst. lia.
  - pose proof (apart_lt _ HA _ _ _ _ _ _ L H' H). lia.
Qed.

(** The word list of a text is determined by its description. *)
Lemma words_of_unique : forall t ws ws', words_of t ws -> words_of t ws' -> ws = ws'.
Proof.
  assert (K : forall t ws ws' n, words_of t ws -> words_of t ws' ->
    forall a a' b b', ws = a ++ b -> ws' = a' ++ b' -> a = a' ->
    length b <= n -> b = b').
  2: { intros t ws ws' H H'. exact (K t ws ws' (length ws) H H' [] [] ws ws' eq_refl eq_refl eq_refl (le_n _)). }
  intros t ws ws' n (F & A & C) (F' & A' & C'). 
  assert (Word : forall ws, Forall (word_ok t) ws -> forall i w, nth_error ws i = Some w -> word_ok t w).
  { intros l Hl i w E. rewrite Forall_forall in Hl. apply Hl. eapply nth_error_In. exact E. }
  (* the first word of [b] starts where that of [b'] does, and ends there *)
  assert (Start : forall ws ws', Forall (word_ok t) ws -> apart ws -> apart ws' ->
     (forall i c, nth_error t i = Some c -> ~ covered ws' i -> c = c_sp \/ c = c_bs) ->
     forall a s e b b', ws = a ++ (s, e) :: b -> ws' = a ++ b' ->
     exists s' e' b'', b' = (s', e') :: b'' /\ s' <= s).
  { clear. intros ws ws' F A A' C a s e b b' -> ->.
    pose proof (nth_error_mid a (s, e) b) as Hm.
    rewrite Forall_forall in F. pose proof (F (s, e) (nth_error_In _ _ Hm)) as (H1 & H2 & (c & Hc & N1 & N2) & _).
    assert (Hcov : exists x y, In (x, y) (a ++ b') /\ x <= s < y).
    { destruct b' as [|[s' e'] b'].
      - destruct (existsb (fun '(x, y) => (x <=? s) && (s <? y)) (a ++ [])) eqn:EX.
        + apply existsb_exists in EX as ([x y] & Hin & HH). apply andb_true_iff in HH as [H3 H4].
          apply Nat.leb_le in H3. apply Nat.ltb_lt in H4. exists x, y. auto.
        + exfalso. destruct (C s c Hc); [|contradiction|contradiction].
          intros (x & y & Hin & Hr). assert (existsb (fun '(x, y) => (x <=? s) && (s <? y)) (a ++ []) = true); [|congruence].
          apply existsb_exists. exists (x, y). split; [assumption|]. apply andb_true_iff. split; [apply Nat.leb_le|apply Nat.ltb_lt]; lia.
      - destruct (existsb (fun '(x, y) => (x <=? s) && (s <? y)) (a ++ (s', e') :: b')) eqn:EX.
        + apply existsb_exists in EX as ([x y] & Hin & HH). apply andb_true_iff in HH as [H3 H4].
          apply Nat.leb_le in H3. apply Nat.ltb_lt in H4. exists x, y. auto.
        + exfalso. destruct (C s c Hc); [|contradiction|contradiction].
          intros (x & y & Hin & Hr). assert (existsb (fun '(x, y) => (x <=? s) && (s <? y)) (a ++ (s', e') :: b') = true); [|congruence].
          apply existsb_exists. exists (x, y). split; [assumption|]. apply andb_true_iff. split; [apply Nat.leb_le|apply Nat.ltb_lt]; lia. }
    destruct Hcov as (x & y & Hin & Hr). apply In_nth_error in Hin as [j Hj].
    destruct (Nat.lt_ge_cases j (length a)) as [L|L].
    - exfalso. rewrite nth_error_app1 in Hj by assumption.
      assert (Hj' : nth_error (a ++ (s, e) :: b) j = Some (x, y)) by (rewrite nth_error_app1; assumption).
      pose proof (apart_lt _ A _ _ _ _ _ _ L Hj' Hm). lia.
    - destruct b' as [|[s' e'] b'].
      + rewrite app_nil_r in Hj. assert (j < length a) by (apply nth_error_Some; congruence). lia.
      + exists s', e', b'. split; [reflexivity|].
        pose proof (nth_error_mid a (s', e') b') as Hm'.
        destruct (Nat.eq_dec j (length a)) as [->|Hne].
        * rewrite Hm' in Hj. inversion Hj; subst. lia.
        * assert (Hlt : length a < j) by lia.
          pose proof (apart_lt _ A' _ _ _ _ _ _ Hlt Hm' Hj).
          pose proof (inc_pos _ (apart_inc _ A') _ _ _ Hm'). lia. }
  assert (End : forall s e e', word_ok t (s, e) -> word_ok t (s, e') -> ~ e < e').
  { intros s e e' (H1 & H2 & _ & _ & H5) (K1 & K2 & _ & K4 & _) L.
    destruct H5 as [H5|[H5 H6]]; [lia|]. apply H6. apply K4; [lia|assumption]. }
  induction n as [|n IH]; intros a a' b b' E E' <- Hn.
  - destruct b; [|simpl in Hn; lia]. destruct b' as [|[s' e'] b']; [reflexivity|].
    destruct (Start ws' ws F' A' A C _ _ _ _ _ E' E) as (? & ? & ? & X & _). discriminate.
  - destruct b as [|[s e] b].
    + destruct b' as [|[s' e'] b']; [reflexivity|].
      destruct (Start ws' ws F' A' A C _ _ _ _ _ E' E) as (? & ? & ? & X & _). discriminate.
    + destruct (Start ws ws' F A A' C' _ _ _ _ _ E E') as (s' & e' & b'' & -> & Hs).
      destruct (Start ws' ws F' A' A C _ _ _ _ _ E' E) as (s2 & e2 & b2 & X & Hs2).
      inversion X; subst s2 e2 b2. assert (s' = s) by lia. subst s'.
      assert (HW : word_ok t (s, e)). { apply (Word ws F (length a)). subst ws. apply nth_error_mid. }
      assert (HW' : word_ok t (s, e')). { apply (Word ws' F' (length a)). subst ws'. apply nth_error_mid. }
      pose proof (End _ _ _ HW HW'). pose proof (End _ _ _ HW' HW). assert (e' = e) by lia. subst e'.
      f_equal. apply (IH (a ++ [(s, e)]) (a ++ [(s, e)])).
      * rewrite <- app_assoc. assumption.
      * rewrite <- app_assoc. assumption.
      * reflexivity.
      * simpl in Hn. lia.
Qed.
Lemma get_buffer_words_iff : forall t ws, get_buffer_words t = ws <-> words_of t ws.
Proof.
  intros t ws. split; [intros <-; apply get_buffer_words_ok|].
  intro H. eapply words_of_unique; [apply get_buffer_words_ok|assumption].
Qed.

Lemma flcp_few : forall l, (forall s, find_longest_common_prefix [s] = Some s) /\
  (find_longest_common_prefix l = None /\ length l < 2 -> l = []).
Proof.
  intro l. split; [reflexivity|]. intros [H1 H2]. destruct l as [|x [|y l]]; [reflexivity|discriminate|].
  cbn in H2. lia.
Qed.

Lemma terminal_width_iff : forall sz w, terminal_width sz = Some w <->
  exists n, sz = Some n /\ 0 < w /\ (n = 0 -> w = 80) /\ (n <> 0 -> w = n).
Proof.
  intros [[|n]|] w; cbn [terminal_width]; split.
  - intro H. injection H as <-. exists 0. repeat split; lia.
  - intros [n [H [_ [H2 _]]]]. injection H as <-. rewrite H2 by reflexivity. reflexivity.
  - intro H. injection H as <-. exists (S n). repeat split; lia.
  - intros [m [H [_ [_ H3]]]]. injection H as <-. rewrite H3 by discriminate. reflexivity.
  - discriminate.
  - intros [n [H _]]. discriminate.
Qed.
