(** Word motions and character searches as functions of the text. *)
From Verif Require Import Base Utf8 BufferModel UtilModel HistoryModel EditorState EditorModel
  KeymapModel ViModel MonadLemmas Lemmas ViSpec.

(** * Word motions *)

Section Words.
  Context (U : unicode) (big : bool) (t : text).
  Local Notation class := (class_of U big).

  Lemma class_blank : forall x, class x = Blank <-> u_white U x = true.
  Proof.
    intro x. unfold class_of. destruct (u_white U x); [tauto|].
    split; [|discriminate]. destruct big; [discriminate|]. destruct (u_alnum U x); [discriminate|].
    destruct (N.eqb x (ch "_")); discriminate.
  Qed.
  Lemma class_word : forall x, u_white U x = false ->
    class x = if big || is_vi_keyword U x then Key else Punct.
  Proof.
    intros x H. unfold class_of, is_vi_keyword, is_char. rewrite H.
    destruct big; [reflexivity|]. destruct (u_alnum U x); [rewrite orb_true_r; reflexivity|].
    rewrite orb_false_r. reflexivity.
  Qed.

  (** The state of [vi_move_word] describes the character under the cursor. *)
  Definition wst (st : wstate) (x : char) : Prop :=
    match st with
    | WSpace => class x = Blank
    | WKeyword => class x = Key
    | WNonKeyword => class x = if big then Key else Punct
    end.

  (** One step either way. *)
  Definition wstep (st : wstate) (y : char) : option wstate :=
    if u_white U y then Some WSpace
    else match st with
         | WSpace => None
         | WKeyword => if negb big && negb (is_vi_keyword U y) then None else Some WKeyword
         | WNonKeyword => if negb big && is_vi_keyword U y then None else Some WNonKeyword
         end.
  Lemma wstep_ok : forall st x y, wst st x ->
    match wstep st y with
    | Some st' => wst st' y /\ (class y = Blank \/ class y = class x)
    | None => class y <> Blank /\ class y <> class x
    end.
  Proof.
    intros st x y H. unfold wstep. destruct (u_white U y) eqn:Ey.
    - assert (class y = Blank) by (apply class_blank; exact Ey). split; [exact H0|left; exact H0].
    - pose proof (class_word y Ey) as Hy.
      destruct st; cbn [wst] in *.
      + rewrite H, Hy. destruct (big || is_vi_keyword U y); split; discriminate.
      + destruct (negb big && negb (is_vi_keyword U y)) eqn:Eb.
        * apply andb_true_iff in Eb as [E1 E2]. apply negb_true_iff in E1, E2.
          rewrite E2, orb_false_r in Hy. rewrite Hy, H. destruct big; [discriminate|]. split; discriminate.
        * assert (big || is_vi_keyword U y = true) as Ek.
          { destruct big; [reflexivity|]. destruct (is_vi_keyword U y); [reflexivity|discriminate]. }
          rewrite Ek in Hy. rewrite Hy, H. auto.
      + destruct (negb big && is_vi_keyword U y) eqn:Eb.
        * apply andb_true_iff in Eb as [E1 E2]. apply negb_true_iff in E1.
          rewrite E2, orb_true_r in Hy. rewrite Hy, H. destruct big; [discriminate|]. split; discriminate.
        * assert (He : class y = if big then Key else Punct).
          { rewrite Hy. revert Eb. clear. case big, (is_vi_keyword U y); cbn; congruence. }
          rewrite H. split; [exact He|right; exact He].
  Qed.
  Lemma mw_loop_S : forall f (right_ : bool) c st,
    mw_loop U (S f) big right_ t c st =
    match advance right_ c (length t) with
    | None => (c, true)
    | Some c' =>
      match nth_error t c' with
      | None => (c', false)
      | Some y => match wstep st y with
                  | Some st' => mw_loop U f big right_ t c' st'
                  | None => (c', true)
                  end
      end
    end.
  Proof.
    intros f right_ c st. cbn [mw_loop]. destruct (advance right_ c (length t)) as [c'|]; [|reflexivity].
    destruct (nth_error t c') as [y|]; [|reflexivity]. unfold wstep.
    destruct st; destruct (u_white U y); try reflexivity.
    - destruct (negb big && negb (is_vi_keyword U y)); reflexivity.
    - destruct (negb big && is_vi_keyword U y); reflexivity.
  Qed.

  Lemma nth_lt : forall p x, nth_error t p = Some x -> p < length t.
  Proof. intros p x H. apply nth_error_Some. congruence. Qed.

  Lemma next_skip : forall (P : nat -> Prop) c p, ~ P (S c) -> next P (S c) p -> next P c p.
  Proof.
    intros P c p Hn [H1 [H2 H3]]. split; [lia|]. split; [exact H2|]. intros q Hq1 Hq2.
    destruct (Nat.eq_dec q (S c)) as [->|]; [exact Hn|]. apply H3; lia.
  Qed.
  Lemma prev_skip : forall (P : nat -> Prop) c p, ~ P c -> prev P c p -> prev P (S c) p.
  Proof.
    intros P c p Hn [H1 [H2 H3]]. split; [lia|]. split; [exact H2|]. intros q Hq1 Hq2.
    destruct (Nat.eq_dec q c) as [->|]; [exact Hn|]. apply H3; lia.
  Qed.

  (** [w]: with enough fuel (one more than the rounds left). *)
  Lemma mw_right : forall f c st x, length t - c <= f -> nth_error t c = Some x -> wst st x ->
    (exists p, mw_loop U f big true t c st = (p, true) /\ next (word_start U big t) c p) \/
    (mw_loop U f big true t c st = (length t, false) /\ forall p, c < p -> ~ word_start U big t p).
  Proof.
    induction f as [|f IH]; intros c st x Hf Hx Hst.
    - apply nth_lt in Hx. lia.
    - rewrite mw_loop_S. pose proof (nth_lt _ _ Hx) as Hc. unfold advance.
      assert (c =? length t = false) as -> by (apply Nat.eqb_neq; lia).
      replace (c + 1) with (S c) by lia. destruct (nth_error t (S c)) as [y|] eqn:Ey.
      + pose proof (wstep_ok st x y Hst) as Hw. destruct (wstep st y) as [st'|].
        * destruct Hw as [Hw1 Hw2].
          assert (Hn : ~ word_start U big t (S c)).
          { intros [z [Z1 [Z2 Z3]]]. rewrite Ey in Z1. injection Z1 as <-.
            destruct Z3 as [Z3|Z3]; [discriminate|]. cbn [Nat.sub] in Z3. rewrite Nat.sub_0_r in Z3.
            destruct Hw2 as [Hw2|Hw2]; [exact (Z2 Hw2)|]. apply (Z3 x Hx). symmetry. exact Hw2. }
          destruct (IH (S c) st' y) as [[p [H1 H2]]|[H1 H2]]; [lia|exact Ey|exact Hw1| |].
          -- left. exists p. split; [exact H1|]. apply next_skip; assumption.
          -- right. split; [exact H1|]. intros p Hp.
             destruct (Nat.eq_dec p (S c)) as [->|]; [exact Hn|]. apply H2. lia.
        * destruct Hw as [Hw1 Hw2]. left. exists (S c). split; [reflexivity|].
          split; [lia|]. split; [|intros; lia].
          exists y. split; [exact Ey|]. split; [exact Hw1|]. right. cbn [Nat.sub]. rewrite Nat.sub_0_r, Hx.
          intros z [= <-] Hz. apply Hw2. symmetry. exact Hz.
      + right. apply nth_error_None in Ey. replace (S c) with (length t) by lia.
        split; [reflexivity|]. intros p Hp [z [Z1 _]]. apply nth_lt in Z1. lia.
  Qed.
  (** [ge] *)
  Lemma mw_left : forall f c st x, c < f -> nth_error t c = Some x -> wst st x ->
    exists p, mw_loop U f big false t c st = (p, true) /\
      (prev (word_end U big t) c p \/ (p = 0 /\ forall q, q < c -> ~ word_end U big t q)).
  Proof.
    induction f as [|f IH]; intros c st x Hf Hx Hst; [lia|].
    rewrite mw_loop_S. unfold advance. destruct c as [|c].
    - exists 0. split; [reflexivity|]. right. split; [reflexivity|]. lia.
    - cbn [Nat.eqb]. replace (S c - 1) with c by lia. pose proof (nth_lt _ _ Hx) as Hc.
      destruct (nth_error t c) as [y|] eqn:Ey; [|apply nth_error_None in Ey; lia].
      pose proof (wstep_ok st x y Hst) as Hw. destruct (wstep st y) as [st'|].
      + destruct Hw as [Hw1 Hw2].
        assert (Hn : ~ word_end U big t c).
        { intros [z [Z1 [Z2 Z3]]]. rewrite Ey in Z1. injection Z1 as <-.
          destruct Hw2 as [Hw2|Hw2]; [exact (Z2 Hw2)|]. apply (Z3 x Hx). symmetry. exact Hw2. }
        destruct (IH c st' y) as [p [H1 H2]]; [lia|exact Ey|exact Hw1|].
        exists p. split; [exact H1|]. destruct H2 as [H2|[H2 H3]].
        * left. apply prev_skip; assumption.
        * right. split; [exact H2|]. intros q Hq.
          destruct (Nat.eq_dec q c) as [->|]; [exact Hn|]. apply H3. lia.
      + destruct Hw as [Hw1 Hw2]. exists c. split; [reflexivity|]. left. split; [lia|].
        split; [|intros; lia]. exists y. split; [exact Ey|]. split; [exact Hw1|].
        rewrite Hx. intros z [= <-] Hz. apply Hw2. symmetry. exact Hz.
  Qed.

  Lemma start_state : forall x,
    wst (if u_white U x then WSpace else if is_vi_keyword U x then WKeyword else WNonKeyword) x.
  Proof.
    intro x. destruct (u_white U x) eqn:Ex; [apply class_blank; exact Ex|].
    pose proof (class_word x Ex) as Hx.
    destruct (is_vi_keyword U x); cbn [wst]; rewrite Hx; destruct big; reflexivity.
  Qed.

  Lemma move_word_right : forall c, c < length t ->
    (exists p, move_word_once U big true t c = (p, true) /\ next (word_start U big t) c p) \/
    (move_word_once U big true t c = (length t, false) /\ forall p, c < p -> ~ word_start U big t p).
  Proof.
    intros c Hc. unfold move_word_once. destruct (nth_error t c) as [x|] eqn:Ex.
    - apply mw_right with x; [lia|exact Ex|apply start_state].
    - apply nth_error_None in Ex. lia.
  Qed.
  Lemma move_word_left : forall c, c < length t ->
    exists p, move_word_once U big false t c = (p, true) /\
      (prev (word_end U big t) c p \/ (p = 0 /\ forall q, q < c -> ~ word_end U big t q)).
  Proof.
    intros c Hc. unfold move_word_once. destruct (nth_error t c) as [x|] eqn:Ex.
    - apply mw_left with x; [lia|exact Ex|apply start_state].
    - apply nth_error_None in Ex. lia.
  Qed.

  (** * Ends of words *)

  Context (Hu : forall x, u_white U x = true -> is_vi_keyword U x = false).

  Definition est (st : estate) (x : char) : Prop :=
    match st with
    | ESpace => True
    | EOnWord => big = false /\ class x = Key
    | EOnOther => big = false /\ class x = Punct
    | EOnSpace => big = true /\ class x = Key
    end.
  Definition estep (st : estate) (y : char) : option estate :=
    match st with
    | ESpace => Some (if u_white U y then ESpace
                      else if negb big && is_vi_keyword U y then EOnWord
                      else if big then EOnSpace else EOnOther)
    | EOnWord => if negb (is_vi_keyword U y) then None else Some EOnWord
    | EOnSpace => if u_white U y then None else Some EOnSpace
    | EOnOther => if u_white U y || is_vi_keyword U y then None else Some EOnOther
    end.
  Lemma mwe_loop_S : forall f (right_ : bool) c st,
    mwe_loop U (S f) big right_ t c st =
    match advance right_ c (length t) with
    | None => (c, true)
    | Some c' =>
      match nth_error t c' with
      | None => (c', false)
      | Some y => match estep st y with
                  | Some st' => mwe_loop U f big right_ t c' st'
                  | None => (go_back right_ c' (length t), true)
                  end
      end
    end.
  Proof.
    intros f right_ c st. cbn [mwe_loop]. destruct (advance right_ c (length t)) as [c'|]; [|reflexivity].
    destruct (nth_error t c') as [y|]; [|reflexivity]. unfold estep. cbv zeta.
    destruct st; try reflexivity.
    - destruct (negb (is_vi_keyword U y)); reflexivity.
    - destruct (u_white U y || is_vi_keyword U y); reflexivity.
    - destruct (u_white U y); reflexivity.
  Qed.
  (** From a blank: a word begins exactly when the new state says so. *)
  Lemma estep_space : forall y, exists st', estep ESpace y = Some st' /\ est st' y /\
    (st' = ESpace <-> class y = Blank).
  Proof.
    intro y. cbn [estep]. eexists. split; [reflexivity|]. destruct (u_white U y) eqn:Ey.
    - split; [exact I|]. split; [intros _; apply class_blank; exact Ey|reflexivity].
    - assert (Hc : big = true /\ class y = Key \/
                   big = false /\ class y = if is_vi_keyword U y then Key else Punct).
      { rewrite (class_word y Ey). case big; auto. }
      destruct Hc as [[Hb Hc]|[Hb Hc]]; pose proof Hc as Hc'; rewrite Hb in Hc'; rewrite Hb; cbn [negb andb].
      + rewrite Hc'. split; [split; assumption|]. split; discriminate.
      + destruct (is_vi_keyword U y); rewrite Hc'; (split; [split; assumption|]); split; discriminate.
  Qed.
  (** On a word: it goes on exactly when the class stays. *)
  Lemma estep_word : forall st x y, est st x -> st <> ESpace ->
    match estep st y with
    | Some st' => st' = st /\ est st y /\ class y = class x
    | None => class y <> class x
    end /\ class x <> Blank.
  Proof.
    intros st x y H Hs. destruct st; [congruence| | |]; cbn [est estep] in *; destruct H as [Hb Hx]; rewrite Hx.
    - split; [|discriminate]. destruct (is_vi_keyword U y) eqn:Ek; cbn.
      + destruct (u_white U y) eqn:Ey; [rewrite (Hu y Ey) in Ek; discriminate|].
        pose proof (class_word y Ey) as Hy. rewrite Ek, orb_true_r in Hy. auto.
      + destruct (u_white U y) eqn:Ey.
        * assert (class y = Blank) as -> by (apply class_blank; exact Ey). discriminate.
        * rewrite (class_word y Ey), Ek, Hb. cbn. discriminate.
    - split; [|discriminate]. destruct (u_white U y) eqn:Ey; cbn.
      + assert (class y = Blank) as -> by (apply class_blank; exact Ey). discriminate.
      + rewrite (class_word y Ey), Hb. cbn [orb].
        destruct (is_vi_keyword U y); [discriminate|auto].
    - split; [|discriminate]. destruct (u_white U y) eqn:Ey.
      + assert (class y = Blank) as -> by (apply class_blank; exact Ey). discriminate.
      + rewrite (class_word y Ey), Hb. cbn. auto.
  Qed.

  (** On a word at [c], the first end at or after it. *)
  Lemma mwe_right_word : forall f c st x, length t - c <= f -> nth_error t c = Some x -> est st x ->
    st <> ESpace ->
    exists p, c <= p /\ word_end U big t p /\ (forall q, c <= q -> q < p -> ~ word_end U big t q) /\
      (mwe_loop U f big true t c st = (p, true) \/
       (mwe_loop U f big true t c st = (length t, false) /\ p = length t - 1)).
  Proof.
    induction f as [|f IH]; intros c st x Hf Hx Hst Hs.
    - apply nth_lt in Hx. lia.
    - rewrite mwe_loop_S. pose proof (nth_lt _ _ Hx) as Hc. unfold advance.
      assert (c =? length t = false) as -> by (apply Nat.eqb_neq; lia).
      replace (c + 1) with (S c) by lia. destruct (nth_error t (S c)) as [y|] eqn:Ey.
      + destruct (estep_word st x y Hst Hs) as [Hw Hb]. destruct (estep st y) as [st'|].
        * destruct Hw as [-> [Hw1 Hw2]].
          assert (Hn : ~ word_end U big t c).
          { intros [z [Z1 [Z2 Z3]]]. rewrite Hx in Z1. injection Z1 as <-. apply (Z3 y Ey). exact Hw2. }
          destruct (IH (S c) st y) as [p [H1 [H2 [H3 H4]]]]; [lia|exact Ey|exact Hw1|exact Hs|].
          exists p. split; [lia|]. split; [exact H2|]. split; [|exact H4]. intros q Hq1 Hq2.
          destruct (Nat.eq_dec q c) as [->|]; [exact Hn|]. apply H3; lia.
        * exists c. split; [lia|]. split; [|split; [intros; lia|left]].
          -- exists x. split; [exact Hx|]. split; [exact Hb|]. rewrite Ey. intros z [= <-]. exact Hw.
          -- unfold go_back, advance. cbn [negb Nat.eqb]. replace (S c - 1) with c by lia. reflexivity.
      + apply nth_error_None in Ey. exists c. split; [lia|]. split; [|split; [intros; lia|right]].
        * exists x. split; [exact Hx|]. destruct (estep_word st x x Hst Hs) as [_ Hb]. split; [exact Hb|].
          intros y Hy. apply nth_lt in Hy. lia.
        * split; [f_equal; lia|lia].
  Qed.
  (** [e] *)
  Lemma mwe_right : forall f c, c < length t -> length t - c <= f ->
    (exists p, mwe_loop U f big true t c ESpace = (p, true) /\ next (word_end U big t) c p) \/
    (mwe_loop U f big true t c ESpace = (length t, false) /\
     (next (word_end U big t) c (length t - 1) \/ forall p, c < p -> ~ word_end U big t p)).
  Proof.
    induction f as [|f IH]; intros c Hc Hf; [lia|].
    rewrite mwe_loop_S. unfold advance.
    assert (c =? length t = false) as -> by (apply Nat.eqb_neq; lia).
    replace (c + 1) with (S c) by lia. destruct (nth_error t (S c)) as [y|] eqn:Ey.
    - destruct (estep_space y) as [st' [-> [Hst Hb]]]. pose proof (nth_lt _ _ Ey) as Hc'.
      destruct (match st' with ESpace => true | _ => false end) eqn:Es.
      + assert (st' = ESpace) by (destruct st'; congruence). subst st'.
        assert (Hn : ~ word_end U big t (S c)).
        { intros [z [Z1 [Z2 _]]]. rewrite Ey in Z1. injection Z1 as <-. apply Z2, Hb. reflexivity. }
        destruct (IH (S c)) as [[p [H1 H2]]|[H1 H2]]; [lia|lia| |].
        * left. exists p. split; [exact H1|]. apply next_skip; assumption.
        * right. split; [exact H1|]. destruct H2 as [H2|H2]; [left; apply next_skip; assumption|].
          right. intros p Hp. destruct (Nat.eq_dec p (S c)) as [->|]; [exact Hn|]. apply H2. lia.
      + assert (st' <> ESpace) by (destruct st'; congruence).
        destruct (mwe_right_word f (S c) st' y) as [p [H1 [H2 [H3 H4]]]]; [lia|exact Ey|exact Hst|assumption|].
        assert (Hnx : next (word_end U big t) c p).
        { split; [lia|]. split; [exact H2|]. intros q Hq1 Hq2. apply H3; lia. }
        destruct H4 as [H4|[H4 ->]]; [left; exists p; auto|right; auto].
    - right. apply nth_error_None in Ey. replace (S c) with (length t) by lia. split; [reflexivity|].
      right. intros p Hp [z [Z1 _]]. apply nth_lt in Z1. lia.
  Qed.

  Lemma mwe_left_word : forall f c st x, c < f -> nth_error t c = Some x -> est st x -> st <> ESpace ->
    exists p, p <= c /\ word_start U big t p /\ (forall q, p < q -> q <= c -> ~ word_start U big t q) /\
      mwe_loop U f big false t c st = (p, true).
  Proof.
    induction f as [|f IH]; intros c st x Hf Hx Hst Hs; [lia|].
    rewrite mwe_loop_S. unfold advance. pose proof (nth_lt _ _ Hx) as Hc.
    destruct (estep_word st x x Hst Hs) as [_ Hb]. destruct c as [|c].
    - exists 0. split; [lia|]. split; [|split; [intros; lia|reflexivity]].
      exists x. split; [exact Hx|]. split; [exact Hb|]. left. reflexivity.
    - cbn [Nat.eqb]. replace (S c - 1) with c by lia.
      destruct (nth_error t c) as [y|] eqn:Ey; [|apply nth_error_None in Ey; lia].
      destruct (estep_word st x y Hst Hs) as [Hw _]. destruct (estep st y) as [st'|].
      + destruct Hw as [-> [Hw1 Hw2]].
        assert (Hn : ~ word_start U big t (S c)).
        { intros [z [Z1 [Z2 Z3]]]. rewrite Hx in Z1. injection Z1 as <-. destruct Z3 as [Z3|Z3]; [discriminate|].
          cbn [Nat.sub] in Z3. rewrite Nat.sub_0_r in Z3. apply (Z3 y Ey). exact Hw2. }
        destruct (IH c st y) as [p [H1 [H2 [H3 H4]]]]; [lia|exact Ey|exact Hw1|exact Hs|].
        exists p. split; [lia|]. split; [exact H2|]. split; [|exact H4]. intros q Hq1 Hq2.
        destruct (Nat.eq_dec q (S c)) as [->|]; [exact Hn|]. apply H3; lia.
      + exists (S c). split; [lia|]. split; [|split; [intros; lia|]].
        * exists x. split; [exact Hx|]. split; [exact Hb|]. right. cbn [Nat.sub]. rewrite Nat.sub_0_r, Ey.
          intros z [= <-]. exact Hw.
        * unfold go_back, advance. cbn [negb].
          assert (c =? length t = false) as -> by (apply Nat.eqb_neq; lia). f_equal. lia.
  Qed.
  (** [b] *)
  Lemma mwe_left : forall f c, c <= length t -> c < f ->
    exists p, mwe_loop U f big false t c ESpace = (p, true) /\
      (prev (word_start U big t) c p \/ (p = 0 /\ forall q, q < c -> ~ word_start U big t q)).
  Proof.
    induction f as [|f IH]; intros c Hc Hf; [lia|].
    rewrite mwe_loop_S. unfold advance. destruct c as [|c].
    - exists 0. split; [reflexivity|]. right. split; [reflexivity|]. lia.
    - cbn [Nat.eqb]. replace (S c - 1) with c by lia.
      destruct (nth_error t c) as [y|] eqn:Ey; [|apply nth_error_None in Ey; lia].
      destruct (estep_space y) as [st' [-> [Hst Hb]]].
      destruct (match st' with ESpace => true | _ => false end) eqn:Es.
      + assert (st' = ESpace) by (destruct st'; congruence). subst st'.
        assert (Hn : ~ word_start U big t c).
        { intros [z [Z1 [Z2 _]]]. rewrite Ey in Z1. injection Z1 as <-. apply Z2, Hb. reflexivity. }
        destruct (IH c) as [p [H1 H2]]; [lia|lia|]. exists p. split; [exact H1|].
        destruct H2 as [H2|[-> H2]]; [left; apply prev_skip; assumption|right].
        split; [reflexivity|]. intros q Hq. destruct (Nat.eq_dec q c) as [->|]; [exact Hn|]. apply H2. lia.
      + assert (st' <> ESpace) by (destruct st'; congruence).
        destruct (mwe_left_word f c st' y) as [p [H1 [H2 [H3 H4]]]]; [lia|exact Ey|exact Hst|assumption|].
        exists p. split; [exact H4|]. left. split; [lia|]. split; [exact H2|]. intros q Hq1 Hq2. apply H3; lia.
  Qed.

  (** The fuel is never used up: any larger amount gives the same answer. *)
  Lemma mw_fuel : forall f g right_ c st, c <= length t ->
    (if right_ : bool then length t - c < f else c < f) -> f <= g ->
    mw_loop U g big right_ t c st = mw_loop U f big right_ t c st.
  Proof.
    induction f as [|f IH]; intros g right_ c st Hc Hf Hg; [destruct right_; lia|].
    destruct g as [|g]; [lia|]. rewrite !mw_loop_S.
    destruct (advance right_ c (length t)) as [c'|] eqn:Ea; [|reflexivity].
    destruct (nth_error t c') as [y|] eqn:Ey; [|reflexivity].
    destruct (wstep st y) as [st'|]; [|reflexivity]. apply nth_lt in Ey.
    apply IH; [lia| |lia]. unfold advance in Ea. destruct right_.
    - destruct (c =? length t); [discriminate|]. injection Ea as <-. lia.
    - destruct (c =? 0) eqn:E0; [discriminate|]. apply Nat.eqb_neq in E0. injection Ea as <-. lia.
  Qed.
  Lemma mwe_fuel : forall f g right_ c st, c <= length t ->
    (if right_ : bool then length t - c < f else c < f) -> f <= g ->
    mwe_loop U g big right_ t c st = mwe_loop U f big right_ t c st.
  Proof.
    induction f as [|f IH]; intros g right_ c st Hc Hf Hg; [destruct right_; lia|].
    destruct g as [|g]; [lia|]. rewrite !mwe_loop_S.
    destruct (advance right_ c (length t)) as [c'|] eqn:Ea; [|reflexivity].
    destruct (nth_error t c') as [y|] eqn:Ey; [|reflexivity].
    destruct (estep st y) as [st'|]; [|reflexivity]. apply nth_lt in Ey.
    apply IH; [lia| |lia]. unfold advance in Ea. destruct right_.
    - destruct (c =? length t); [discriminate|]. injection Ea as <-. lia.
    - destruct (c =? 0) eqn:E0; [discriminate|]. apply Nat.eqb_neq in E0. injection Ea as <-. lia.
  Qed.
End Words.

(** * Repetition *)

Fixpoint iterp (n : nat) (step : nat -> nat * bool) (c : nat) : nat :=
  match n with
  | O => c
  | S n' => let '(c', go) := step c in if go then iterp n' step c' else c'
  end.
Lemma repeat_iterp : forall n step c, repeat_pos n step c = iterp (N.to_nat n) step c.
Proof.
  intros n step c. unfold repeat_pos, Nloop, bind, ret.
  assert (H : forall k c0, match nloop k (fun c => let '(c', go) := step c in ORet go c') c0 with
                           | ORet _ c1 => c1 = iterp k step c0 | _ => False end).
  { induction k as [|k IH]; intro c0; [reflexivity|]. cbn [nloop iterp]. unfold bind, ret.
    destruct (step c0) as [c1 go]. destruct go; [apply IH|reflexivity]. }
  destruct n as [|p]; [reflexivity|]. rewrite ploop_nloop. cbn [N.to_nat].
  specialize (H (Pos.to_nat p) c). destruct (nloop _ _ c); [exact H|contradiction..].
Qed.

Lemma clamp_in : forall n c, c < n -> clamp_cursor true n c = c.
Proof.
  intros n c H. unfold clamp_cursor. assert (n <? c = false) as -> by (apply Nat.ltb_ge; lia).
  assert (c =? n = false) as -> by (apply Nat.eqb_neq; lia). rewrite andb_false_r. reflexivity.
Qed.
Lemma clamp_end : forall n, clamp_cursor true n n = n - 1.
Proof.
  intro n. unfold clamp_cursor. rewrite Nat.ltb_irrefl, Nat.eqb_refl. destruct n; [reflexivity|]. reflexivity.
Qed.

Definition word_once (U : unicode) (m : wmotion) (big : bool) (t : text) (c : nat) : nat * bool :=
  match m with
  | WNext => move_word_once U big true t c
  | WBackEnd => move_word_once U big false t c
  | WEnd => move_word_end_once U big true t c
  | WBack => move_word_end_once U big false t c
  end.

Lemma hop_lt : forall U m big t c p, word_hop U m big t c p -> p < length t.
Proof.
  intros U m big t c p H. destruct m; destruct H as [_ [[x [H _]] _]]; apply nth_error_Some; congruence.
Qed.
Lemma last_stays : forall U m big t n, (m = WNext \/ m = WEnd) ->
  hops (word_hop U m big t) (word_stop m t) n (length t - 1) (length t - 1).
Proof.
  intros U m big t [|n] Hm; [constructor|].
  destruct Hm; subst m; cbn [word_stop]; apply hops_stop; intros p H;
    pose proof (hop_lt U _ _ _ _ _ H); destruct H as [H _]; lia.
Qed.

(** Where the cursor ends up in normal mode. *)
Lemma word_hops : forall U m big t n c,
  (forall x, u_white U x = true -> is_vi_keyword U x = false) ->
  (c < length t \/ t = [] /\ c = 0) ->
  hops (word_hop U m big t) (word_stop m t) n c
       (clamp_cursor true (length t) (Nat.min (iterp n (word_once U m big t) c) (length t))).
Proof.
  intros U m big t n c Hu [Hc|[-> ->]].
  - revert c Hc. induction n as [|n IH]; intros c Hc.
    + cbn [iterp]. rewrite Nat.min_l by lia. rewrite clamp_in by exact Hc. constructor.
    + cbn [iterp]. destruct m; cbn [word_once].
      * destruct (move_word_right U big t c Hc) as [[p [-> H]]|[-> H]].
        -- pose proof (hop_lt U WNext _ _ _ _ H). eapply hops_go; [exact H|]. apply IH. assumption.
        -- rewrite Nat.min_id, clamp_end. apply hops_stop. intros p [H1 [H2 _]]. exact (H p H1 H2).
      * destruct (mwe_right U big t Hu (S (c + length t)) c Hc) as [[p [H1 H]]|[H1 H]]; [lia| |];
          unfold move_word_end_once; rewrite H1.
        -- pose proof (hop_lt U WEnd _ _ _ _ H). eapply hops_go; [exact H|]. apply IH. assumption.
        -- rewrite Nat.min_id, clamp_end. destruct H as [H|H].
           ++ eapply hops_go; [exact H|]. apply last_stays. auto.
           ++ apply hops_stop. intros p [H2 [H3 _]]. exact (H p H2 H3).
      * destruct (mwe_left U big t Hu (S (c + length t)) c) as [p [H1 H]]; [lia|lia|].
        unfold move_word_end_once. rewrite H1. destruct H as [H|[-> H]].
        -- pose proof (hop_lt U WBack _ _ _ _ H). eapply hops_go; [exact H|]. apply IH. assumption.
        -- assert (Hz : iterp n (fun c0 => mwe_loop U (S (c0 + length t)) big false t c0 ESpace) 0 = 0).
           { clear. induction n as [|n IH]; [reflexivity|]. exact IH. }
           cbn [word_once] in *. unfold word_once, move_word_end_once.
           rewrite Hz. cbn [Nat.min]. rewrite clamp_in by lia. apply hops_stop.
           intros p [H2 [H3 _]]. exact (H p H2 H3).
      * destruct (move_word_left U big t c Hc) as [p [H1 H]]. rewrite H1. destruct H as [H|[-> H]].
        -- pose proof (hop_lt U WBackEnd _ _ _ _ H). eapply hops_go; [exact H|]. apply IH. assumption.
        -- assert (Hz : iterp n (move_word_once U big false t) 0 = 0).
           { clear - Hc. induction n as [|n IH]; [reflexivity|]. cbn [iterp]. unfold move_word_once.
             destruct t as [|y t']; [cbn in Hc; lia|]. exact IH. }
           change (word_once U WBackEnd big t) with (move_word_once U big false t).
           rewrite Hz. cbn [Nat.min]. rewrite clamp_in by lia. apply hops_stop.
           intros p [H2 [H3 _]]. exact (H p H2 H3).
  - change (length []) with 0. rewrite Nat.min_0_r. change (clamp_cursor true 0 0) with 0.
    destruct n as [|n]; [constructor|].
    assert (Hz : word_stop m [] = 0) by (destruct m; reflexivity). 
    generalize (hops_stop (word_hop U m big []) (word_stop m []) n 0). rewrite Hz. intro K.
    apply K. intros p H. apply hop_lt in H. cbn in H. lia.
Qed.

(** * Character searches *)

Lemma occ_cons : forall x y t, occ x (y :: t) = ((if N.eqb y x then 1 else 0) + occ x t)%N.
Proof.
  intros x y t. unfold occ. cbn [count_occ]. destruct (N.eq_dec y x) as [->|H].
  - rewrite N.eqb_refl, Nat2N.inj_succ. lia.
  - apply N.eqb_neq in H. rewrite H. reflexivity.
Qed.
Lemma occ_app : forall x a b, occ x (a ++ b) = (occ x a + occ x b)%N.
Proof. intros x a b. unfold occ. rewrite count_occ_app. lia. Qed.

Lemma positions_length : forall x t i, N.of_nat (length (positions x i t)) = occ x t.
Proof.
  induction t as [|y t IH]; intro i; [reflexivity|]. rewrite occ_cons. cbn [positions].
  destruct (N.eqb y x); [cbn [length]; rewrite Nat2N.inj_succ, IH; lia|rewrite IH; lia].
Qed.
Lemma positions_nth : forall x t i k p, nth_error (positions x i t) k = Some p ->
  exists m r, t = m ++ x :: r /\ occ x m = N.of_nat k /\ p = i + length m.
Proof.
  induction t as [|y t IH]; intros i k p H; cbn [positions] in H; [destruct k; discriminate|].
  destruct (N.eqb y x) eqn:E.
  - apply N.eqb_eq in E. subst y. destruct k as [|k].
    + injection H as <-. exists [], t. split; [reflexivity|]. split; [reflexivity|cbn; lia].
    + destruct (IH _ _ _ H) as [m [r [-> [H2 ->]]]]. exists (x :: m), r.
      split; [reflexivity|]. rewrite occ_cons, N.eqb_refl, H2. split; [lia|]. cbn [length]. lia.
  - destruct (IH _ _ _ H) as [m [r [-> [H2 ->]]]]. exists (y :: m), r.
    split; [reflexivity|]. rewrite occ_cons, E, H2. split; [lia|]. cbn [length]. lia.
Qed.
Lemma positions_snoc : forall x t i y,
  positions x i (t ++ [y]) = positions x i t ++ (if N.eqb y x then [i + length t] else []).
Proof.
  induction t as [|z t IH]; intros i y; cbn [positions app length].
  - rewrite Nat.add_0_r. destruct (N.eqb y x); reflexivity.
  - rewrite IH. replace (S i + length t) with (i + S (length t)) by lia.
    destruct (N.eqb z x); reflexivity.
Qed.
Lemma positions_rev : forall x t k p, nth_error (rev (positions x 0 t)) k = Some p ->
  exists a m, t = a ++ x :: m /\ occ x m = N.of_nat k /\ p = length a.
Proof.
  intros x t. induction t as [|y t IH] using rev_ind; intros k p H; [destruct k; discriminate|].
  rewrite positions_snoc, rev_app_distr in H. destruct (N.eqb y x) eqn:E; cbn [rev app] in H.
  - apply N.eqb_eq in E. subst y. destruct k as [|k]; cbn [nth_error] in H.
    + injection H as <-. exists t, []. auto.
    + destruct (IH _ _ H) as [a [m [-> [H2 ->]]]]. exists a, (m ++ [x]).
      rewrite <- app_assoc. split; [reflexivity|]. rewrite occ_app, H2, occ_cons, N.eqb_refl.
      split; [|reflexivity]. change (occ x []) with 0%N. lia.
  - destruct (IH _ _ H) as [a [m [-> [H2 ->]]]]. exists a, (m ++ [y]).
    rewrite <- app_assoc. split; [reflexivity|]. rewrite occ_app, H2, occ_cons, E.
    split; [|reflexivity]. change (occ x []) with 0%N. lia.
Qed.
Lemma nth_big_spec : forall l n, n <> 0%N ->
  match nth_big l n with
  | Some p => exists k, (N.of_nat k + 1 = n)%N /\ nth_error l k = Some p
  | None => (N.of_nat (length l) < n)%N
  end.
Proof.
  intros l n Hn. unfold nth_big. destruct (N.of_nat (length l) <? n)%N eqn:E; [apply N.ltb_lt; exact E|].
  apply N.ltb_ge in E. destruct (nth_error l (N.to_nat n - 1)) as [p|] eqn:Ep.
  - exists (N.to_nat n - 1). split; [lia|exact Ep].
  - apply nth_error_None in Ep. lia.
Qed.

Lemma find_right : forall t c x n r, find_char t (c + 1) x n = Val r ->
  match r with
  | Some p => nth_right t c x n p
  | None => (occ x (skipn (S c) t) < n)%N
  end.
Proof.
  intros t c x n r H. unfold find_char in H. destruct (n =? 0)%N eqn:En; [discriminate|].
  apply N.eqb_neq in En. injection H as <-. replace (c + 1) with (S c) by lia.
  pose proof (nth_big_spec (positions x (S c) (skipn (S c) t)) n En) as S.
  destruct (nth_big _ n) as [p|].
  - destruct S as [k [Hk Hp]]. destruct (positions_nth _ _ _ _ _ Hp) as [m [r [H1 [H2 ->]]]].
    exists (firstn (Datatypes.S c) t), m, r. rewrite <- H1, firstn_skipn. split; [reflexivity|].
    split; [|split; [lia|reflexivity]]. rewrite firstn_length.
    apply (f_equal (@length N)) in H1. rewrite skipn_length, app_length in H1. cbn [length] in H1. lia.
  - rewrite positions_length in S. exact S.
Qed.
Lemma find_left : forall t c x n r, find_char_rev t c x n = Val r ->
  match r with
  | Some p => nth_left t c x n p
  | None => (occ x (firstn c t) < n)%N
  end.
Proof.
  intros t c x n r H. unfold find_char_rev in H. destruct (n =? 0)%N eqn:En; [discriminate|].
  apply N.eqb_neq in En. unfold sub_chk in H. destruct (c <=? length t) eqn:Ec; [|discriminate].
  cbn [rbind] in H. injection H as <-. apply Nat.leb_le in Ec.
  pose proof (nth_big_spec (rev (positions x 0 (firstn c t))) n En) as S.
  destruct (nth_big _ n) as [p|].
  - destruct S as [k [Hk Hp]]. destruct (positions_rev _ _ _ _ Hp) as [a [m [H1 [H2 ->]]]].
    exists a, m, (skipn c t). split; [|split; [|split; [lia|reflexivity]]].
    + rewrite <- (firstn_skipn c t) at 1. rewrite H1, <- app_assoc. reflexivity.
    + apply (f_equal (@length N)) in H1. rewrite firstn_length, app_length in H1. cbn [length] in H1. lia.
  - rewrite rev_length, positions_length in S. exact S.
Qed.

(** * Motions after an operator *)

(** With the cursor allowed behind the last character. *)
Lemma next_hops : forall U big t n c, c <= length t ->
  hops (next (word_start U big t)) (length t) n c (Nat.min (iterp n (word_once U WNext big t) c) (length t)).
Proof.
  intros U big t. induction n as [|n IH]; intros c Hc; cbn [iterp].
  - rewrite Nat.min_l by exact Hc. constructor.
  - destruct (Nat.eq_dec c (length t)) as [->|Hn].
    + assert (word_once U WNext big t (length t) = (length t, false)) as ->.
      { cbn [word_once]. unfold move_word_once. assert (nth_error t (length t) = None) as -> by (apply nth_error_None; lia). reflexivity. }
      rewrite Nat.min_id. apply hops_stop. intros p [H1 [[x [H2 _]] _]].
      assert (p < length t) by (apply nth_error_Some; congruence). lia.
    + change (word_once U WNext big t c) with (move_word_once U big true t c).
      destruct (move_word_right U big t c) as [[p [-> H]]|[-> H]]; [lia| |].
      * pose proof (hop_lt U WNext _ _ _ _ H). eapply hops_go; [exact H|]. apply IH. lia.
      * rewrite Nat.min_id. apply hops_stop. intros p [H1 [H2 _]]. exact (H p H1 H2).
Qed.
Lemma back_hops : forall U big t n c, (forall x, u_white U x = true -> is_vi_keyword U x = false) ->
  c <= length t ->
  hops (prev (word_start U big t)) 0 n c (Nat.min (iterp n (word_once U WBack big t) c) (length t)).
Proof.
  intros U big t n c Hu. revert c. induction n as [|n IH]; intros c Hc; cbn [iterp].
  - rewrite Nat.min_l by exact Hc. constructor.
  - change (word_once U WBack big t c) with (mwe_loop U (S (c + length t)) big false t c ESpace).
    destruct (mwe_left U big t Hu (S (c + length t)) c) as [p [-> H]]; [lia|lia|].
    destruct H as [H|[-> H]].
    + pose proof (hop_lt U WBack _ _ _ _ H). eapply hops_go; [exact H|]. apply IH. lia.
    + assert (Hz : iterp n (word_once U WBack big t) 0 = 0).
      { clear. induction n as [|n IH]; [reflexivity|]. exact IH. }
      rewrite Hz. cbn [Nat.min]. apply hops_stop. intros p [H2 [H3 _]]. exact (H p H2 H3).
Qed.

(** The places hopped to are determined. *)
Lemma next_fun : forall P c p q, next P c p -> next P c q -> p = q.
Proof.
  intros P c p q [H1 [H2 H3]] [K1 [K2 K3]]. destruct (lt_eq_lt_dec p q) as [[H|H]|H]; [|exact H|].
  - exfalso. exact (K3 p H1 H H2).
  - exfalso. exact (H3 q K1 H K2).
Qed.
Lemma prev_fun : forall P c p q, prev P c p -> prev P c q -> p = q.
Proof.
  intros P c p q [H1 [H2 H3]] [K1 [K2 K3]]. destruct (lt_eq_lt_dec p q) as [[H|H]|H]; [|exact H|].
  - exfalso. exact (H3 q H K1 K2).
  - exfalso. exact (K3 p H H1 H2).
Qed.
Lemma hops_fun : forall (R : nat -> nat -> Prop) stop, (forall c p q, R c p -> R c q -> p = q) ->
  forall n c p q, hops R stop n c p -> hops R stop n c q -> p = q.
Proof.
  intros R stop HR n c p q H. revert q. induction H as [c|n c c1 c2 H1 H2 IH|n c H1]; intros q K; inversion K; subst.
  - reflexivity.
  - apply IH. rewrite (HR _ _ _ H1 H0). assumption.
  - exfalso. eapply H0. exact H1.
  - exfalso. eapply H1. eassumption.
  - reflexivity.
Qed.

(** The character found is determined, and either it is found or it is not. *)
Lemma app_eq_length : forall {A} (a b c d : list A), a ++ b = c ++ d -> length a = length c -> a = c /\ b = d.
Proof.
  induction a as [|x a IH]; intros b [|y c] d H Hl; try discriminate; [auto|].
  injection H as -> H. destruct (IH b c d H) as [-> ->]; [injection Hl; auto|auto].
Qed.
Lemma occ_split : forall x m m' r r', m ++ x :: r = m' ++ x :: r' ->
  count_occ N.eq_dec m x = count_occ N.eq_dec m' x -> m = m'.
Proof.
  induction m as [|y m IH]; intros [|y' m'] r r' H Ho; cbn [app] in H; [reflexivity| | |].
  - injection H as <- _. cbn [count_occ] in Ho. destruct (N.eq_dec x x); [discriminate|contradiction].
  - injection H as -> _. cbn [count_occ] in Ho. destruct (N.eq_dec x x); [discriminate|contradiction].
  - injection H as <- H. f_equal. apply (IH m' r r' H). cbn [count_occ] in Ho. destruct (N.eq_dec y x); [injection Ho|]; auto.
Qed.
Lemma nth_right_fun : forall t c x n p q, nth_right t c x n p -> nth_right t c x n q -> p = q.
Proof.
  intros t c x n p q [a [m [r [-> [H1 [H2 ->]]]]]] [a' [m' [r' [K [K1 [K2 ->]]]]]].
  assert (a = a' /\ m ++ x :: r = m' ++ x :: r') as [-> E] by (apply app_eq_length; [exact K|lia]).
  assert (m = m') by (apply (occ_split x m m' r r' E); unfold occ in *; lia). subst. reflexivity.
Qed.
Lemma nth_left_fun : forall t c x n p q, nth_left t c x n p -> nth_left t c x n q -> p = q.
Proof.
  intros t c x n p q [a [m [r [-> [H1 [H2 ->]]]]]] [a' [m' [r' [K [K1 [K2 ->]]]]]].
  assert (E : a ++ x :: m = a' ++ x :: m' /\ r = r').
  { apply app_eq_length; [rewrite <- !app_assoc; cbn [app]; exact K|]. rewrite !app_length. cbn [length]. lia. }
  destruct E as [E _]. apply (f_equal (@rev N)) in E. rewrite !rev_app_distr in E. cbn [rev] in E.
  rewrite <- !app_assoc in E. cbn [app] in E.
  assert (rev m = rev m') as Hm.
  { apply (occ_split x (rev m) (rev m') _ _ E). rewrite !count_occ_rev. unfold occ in *. lia. }
  apply (f_equal (@length N)) in Hm. rewrite !rev_length in Hm. lia.
Qed.
Lemma search_fun : forall m t c x n p q, search_hit m t c x n p -> search_hit m t c x n q -> p = q.
Proof.
  intros m t c x n p q H K. destruct m; try contradiction;
    first [exact (nth_right_fun _ _ _ _ _ _ H K)|exact (nth_left_fun _ _ _ _ _ _ H K)].
Qed.
Lemma hit_miss : forall m t c x n p, search_hit m t c x n p -> ~ search_miss m t c x n.
Proof.
  intros m t c x n p H K. destruct m; try contradiction;
    destruct H as [a [w [r [-> [H1 [H2 _]]]]]]; cbn [search_miss] in K.
  1,2: rewrite <- H1, skipn_app_len, occ_app, occ_cons, N.eqb_refl in K; lia.
  1,2: replace (a ++ x :: w ++ r) with ((a ++ x :: w) ++ r) in K by (rewrite <- app_assoc; reflexivity);
    rewrite firstn_app_eq, occ_app, occ_cons, N.eqb_refl in K by (rewrite app_length; cbn [length]; lia); lia.
Qed.
