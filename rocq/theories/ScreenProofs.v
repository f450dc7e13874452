(** Where a redraw draws: proofs about the terminal of ScreenSpec.v. *)
From Verif Require Import Base Utf8 BufferModel UtilModel UtilSpec UtilProofs HistoryModel HistorySpec HistoryProofs EditorState EditorModel
  MonadLemmas EditorLemmas CursorProofs TextProofs BufferSpec BufferProofs CompleteProofs SuggestProofs Tests ScreenSpec.
Local Open Scope monad_scope.

(** * Decimal numerals *)
Definition digit (c : char) : Prop := (48 <= c <= 57)%N.
Lemma dec_digit : forall n, digit (48 + n mod 10)%N.
Proof. intro n. pose proof (N.mod_lt n 10 ltac:(discriminate)). unfold digit. lia. Qed.
Definition numstep (n : N) (c : char) : N := if ((48 <=? c) && (c <=? 57))%N then (10 * n + (c - 48))%N else n.
Lemma numstep_digit : forall n d, (d < 10)%N -> numstep n (48 + d) = (10 * n + d)%N.
Proof.
  intros n d H. unfold numstep. replace ((48 <=? 48 + d)%N && (48 + d <=? 57)%N) with true; [lia|].
  symmetry. apply andb_true_intro. split; apply N.leb_le; lia.
Qed.
Lemma dec_digits_value : forall f n acc, (n < N.pow 2 (N.of_nat f))%N -> Forall digit acc ->
  Forall digit (dec_digits f n acc) /\ fold_left numstep (dec_digits f n acc) 0%N = fold_left numstep acc n.
Proof.
  induction f as [|f IH]; intros n acc Hn Ha; cbn [dec_digits].
  - split; [exact Ha|]. assert (n = 0%N) by (cbn in Hn; lia). subst. reflexivity.
  - assert (Ha' : Forall digit ((48 + n mod 10)%N :: acc)) by (constructor; [apply dec_digit|exact Ha]).
    pose proof (N.mod_lt n 10 ltac:(discriminate)) as Hm. pose proof (N.div_mod n 10 ltac:(discriminate)) as Hd.
    destruct (n <? 10)%N eqn:E.
    + apply N.ltb_lt in E. split; [exact Ha'|]. cbn [fold_left]. rewrite numstep_digit by exact Hm.
      rewrite (N.mod_small n 10) by exact E. reflexivity.
    + rewrite Nat2N.inj_succ, N.pow_succ_r' in Hn.
      destruct (IH (n / 10)%N _ ltac:(apply N.div_lt_upper_bound; lia) Ha') as [K1 K2]. split; [exact K1|].
      rewrite K2. cbn [fold_left]. rewrite numstep_digit by exact Hm. f_equal. lia.
Qed.
Lemma size_bound : forall n, (n < N.pow 2 (N.of_nat (S (N.size_nat n))))%N.
Proof.
  intro n. rewrite Nat2N.inj_succ, N.pow_succ_r'. destruct n as [|p]; [reflexivity|]. cbn [N.size_nat].
  assert (H : (N.pos p < 2 ^ N.of_nat (Pos.size_nat p))%N).
  { induction p as [p IH|p IH|]; cbn [Pos.size_nat]; rewrite ?Nat2N.inj_succ, ?N.pow_succ_r'; try lia; reflexivity. }
  lia.
Qed.
Lemma decimal_digits : forall n, Forall digit (decimal n).
Proof. intro n. apply dec_digits_value; [apply size_bound|constructor]. Qed.
Lemma decimal_number : forall n, number (decimal n) = n.
Proof. intro n. destruct (dec_digits_value _ n [] (size_bound n) (Forall_nil _)) as [_ H]. exact H. Qed.

(** * The terminal *)
Section Term.
  Context (W : nat) (cw : char -> nat) (HW : 0 < W).
  Notation feeds := (feeds W cw).
  Notation shows := (shows W cw).
  Notation nar := (narrow cw).

  Lemma feeds_app : forall T a b, feeds T (a ++ b) = feeds (feeds T a) b.
  Proof. intros. apply fold_left_app. Qed.
  Lemma shows_app : forall T a b, shows T (a ++ b) = shows (shows T a) b.
  Proof. intros T a b. unfold ScreenSpec.shows, render_toks. rewrite flat_map_app. apply feeds_app. Qed.
  Lemma shows_one : forall T t, shows T [t] = feeds T (render_tok t).
  Proof. intros T t. unfold ScreenSpec.shows, render_toks. cbn [flat_map]. rewrite app_nil_r. reflexivity. Qed.
  Lemma shows_cons : forall T t l, shows T (t :: l) = shows (feeds T (render_tok t)) l.
  Proof. intros T t l. change (t :: l) with ([t] ++ l). rewrite shows_app, shows_one. reflexivity. Qed.

  Lemma shows_str : forall T x l, shows T (TStr x :: l) = shows (feeds T x) l.
  Proof. intros. apply shows_cons. Qed.

  Definition param (c : char) : Prop := (48 <= c <= 63)%N.
  Lemma feeds_params : forall p r k l q, Forall param p ->
    feeds (mkTerm r k l (Control q)) p = mkTerm r k l (Control (q ++ p)).
  Proof.
    induction p as [|c p IH]; intros r k l q H; [rewrite app_nil_r; reflexivity|]. inversion H as [|? ? Hc Hp]; subst.
    unfold ScreenSpec.feeds. cbn [fold_left]. unfold feed at 2. cbn [t_st t_row t_col t_log].
    replace ((64 <=? c)%N && (c <=? 126)%N) with false.
    - fold (feeds (mkTerm r k l (Control (q ++ [c]))) p). rewrite IH by exact Hp. rewrite <- app_assoc. reflexivity.
    - symmetry. apply andb_false_intro1. apply N.leb_gt. unfold param in Hc. lia.
  Qed.
  Lemma feeds_csi : forall r k l p f, Forall param p -> ((64 <=? f) && (f <=? 126))%N = true ->
    feeds (mkTerm r k l Ground) (csi (p ++ [f])) = control W (mkTerm r k l (Control p)) p f.
  Proof.
    intros r k l p f Hp Hf. unfold csi.
    change (feeds (mkTerm r k l Ground) (c_esc :: ch "[" :: p ++ [f])) with (feeds (mkTerm r k l (Control [])) (p ++ [f])).
    rewrite feeds_app, feeds_params by exact Hp. unfold ScreenSpec.feeds. cbn [fold_left app]. unfold feed. cbn [t_st]. rewrite Hf. reflexivity.
  Qed.
  Lemma digit_param : forall p, Forall digit p -> Forall param p.
  Proof. intros p. apply Forall_impl. unfold digit, param. intros. lia. Qed.
  Lemma feeds_style : forall r k l p, Forall param p ->
    feeds (mkTerm r k l Ground) (csi (p ++ [ch "m"])) = mkTerm r k l Ground.
  Proof. intros r k l p Hp. rewrite feeds_csi by (auto; reflexivity). reflexivity. Qed.

  Definition mov (n : N) : nat := N.to_nat (N.max 1 n).
  Lemma feeds_up : forall r k l n, feeds (mkTerm r k l Ground) (render_tok (TUp n)) = mkTerm (r - mov n) (Nat.min k (W - 1)) l Ground.
  Proof.
    intros r k l n. cbn [render_tok]. change (str "A") with [ch "A"]. rewrite feeds_csi; [|apply digit_param, decimal_digits|reflexivity].
    unfold control. cbn [t_row t_col t_log]. rewrite decimal_number. reflexivity.
  Qed.
  Lemma feeds_left : forall r k l n, feeds (mkTerm r k l Ground) (render_tok (TLeft n)) = mkTerm r (Nat.min k (W - 1) - mov n) l Ground.
  Proof.
    intros r k l n. cbn [render_tok]. change (str "D") with [ch "D"]. rewrite feeds_csi; [|apply digit_param, decimal_digits|reflexivity].
    unfold control. cbn [t_row t_col t_log]. rewrite decimal_number. reflexivity.
  Qed.
  Lemma feeds_right : forall r k l n, feeds (mkTerm r k l Ground) (render_tok (TRight n))
    = mkTerm r (Nat.min (Nat.min k (W - 1) + mov n) (W - 1)) l Ground.
  Proof.
    intros r k l n. cbn [render_tok]. change (str "C") with [ch "C"]. rewrite feeds_csi; [|apply digit_param, decimal_digits|reflexivity].
    unfold control. cbn [t_row t_col t_log]. rewrite decimal_number. reflexivity.
  Qed.
  Lemma feeds_modes : forall r k l, feeds (mkTerm r k l Ground) (render_tok TModes) = mkTerm r k l Ground.
  Proof. reflexivity. Qed.
  Lemma feeds_clear : forall r k l, feeds (mkTerm r k l Ground) (render_tok TClearAfter) = mkTerm r k l Ground.
  Proof. reflexivity. Qed.
  Lemma feeds_cr : forall r k l, feeds (mkTerm r k l Ground) (render_tok TCR) = mkTerm r 0 l Ground.
  Proof. reflexivity. Qed.
  Lemma feeds_crlf : forall r k l, feeds (mkTerm r k l Ground) (render_tok TCRLF) = mkTerm (S r) 0 l Ground.
  Proof. reflexivity. Qed.
  Lemma color_params : forall a n, Forall param a -> Forall param (a ++ decimal n).
  Proof. intros a n H. apply Forall_app. split; [exact H|apply digit_param, decimal_digits]. Qed.
  Lemma p38 : Forall param (str "38;5;"). Proof. repeat constructor; vm_compute; discriminate. Qed.
  Lemma p48 : Forall param (str "48;5;"). Proof. repeat constructor; vm_compute; discriminate. Qed.
  Lemma feeds_fg : forall r k l n, feeds (mkTerm r k l Ground) (render_tok (TFg n)) = mkTerm r k l Ground.
  Proof.
    intros r k l n. cbn [render_tok]. unfold fg_str. change (str "m") with [ch "m"]. rewrite app_assoc.
    apply feeds_style, color_params, p38.
  Qed.
  Lemma feeds_bg : forall r k l n, feeds (mkTerm r k l Ground) (render_tok (TBg n)) = mkTerm r k l Ground.
  Proof.
    intros r k l n. cbn [render_tok]. unfold bg_str. change (str "m") with [ch "m"]. rewrite app_assoc.
    apply feeds_style, color_params, p48.
  Qed.
  Lemma feeds_fgreset : forall r k l, feeds (mkTerm r k l Ground) (render_tok TFgReset) = mkTerm r k l Ground.
  Proof. reflexivity. Qed.

  (** A narrow character. *)
  Lemma feed_narrow : forall r k l c, nar c ->
    feed W cw (mkTerm r k l Ground) c =
      if W <? k + 1 then mkTerm (S r) 1 (l ++ [(S r, 0, c)]) Ground else mkTerm r (k + 1) (l ++ [(r, k, c)]) Ground.
  Proof.
    intros r k l c [H1 [H2 H3]]. unfold feed. cbn [t_st].
    destruct (N.eqb_spec c c_esc) as [->|_]; [unfold c_esc in H1; lia|].
    destruct (N.eqb_spec c c_cr) as [->|_]; [unfold c_cr in H1; lia|].
    destruct (N.eqb_spec c c_nl) as [->|_]; [unfold c_nl in H1; lia|].
    destruct (N.eqb_spec c 8) as [->|_]; [lia|].
    destruct (N.eqb_spec c c_tab) as [->|_]; [unfold c_tab in H1; lia|].
    replace ((c <? 32)%N || (c =? 127)%N) with false.
    - unfold draw. rewrite H3. cbn [Nat.eqb t_col t_row t_log]. destruct (W <? k + 1); reflexivity.
    - symmetry. apply orb_false_intro; [apply N.ltb_ge; exact H1|apply N.eqb_neq; exact H2].
  Qed.

  (** Text without escape characters keeps the terminal out of sequences. *)
  Lemma feed_ground : forall T c, t_st T = Ground -> c <> c_esc -> t_st (feed W cw T c) = Ground /\ exists l, t_log (feed W cw T c) = t_log T ++ l.
  Proof.
    intros [r k l st] c H Hc. cbn [t_st] in H. subst st. unfold feed. cbn [t_st t_log t_row t_col].
    destruct (N.eqb_spec c c_esc) as [K|_]; [contradiction|].
    repeat match goal with |- context [if ?b then _ else _] => destruct b end; cbn [t_st t_log];
      try (split; [reflexivity|exists []; rewrite app_nil_r; reflexivity]).
    unfold draw. destruct (cw c =? 0); [split; [reflexivity|exists []; rewrite app_nil_r; reflexivity]|].
    destruct (W <? _); cbn [t_st t_log]; (split; [reflexivity|eexists; reflexivity]).
  Qed.
  Lemma feeds_ground : forall t T, t_st T = Ground -> ~ In c_esc t -> t_st (feeds T t) = Ground /\ exists l, t_log (feeds T t) = t_log T ++ l.
  Proof.
    induction t as [|c t IH]; intros T H Ht; [split; [exact H|exists []; rewrite app_nil_r; reflexivity]|].
    destruct (feed_ground T c H ltac:(intro K; apply Ht; left; exact K)) as [K1 [l1 K2]].
    destruct (IH (feed W cw T c) K1 ltac:(intro K; apply Ht; right; exact K)) as [K3 [l2 K4]].
    split; [exact K3|]. exists (l1 ++ l2). change (feeds T (c :: t)) with (feeds (feed W cw T c) t). rewrite K4, K2, app_assoc. reflexivity.
  Qed.

  (** * Offsets: how many cells after the start of row [r0] *)
  Section Row.
    Context (r0 ind : nat).
    Definition fresh (n : nat) : nat * nat := (r0 + n / W, n mod W).
    (** The cursor after writing into the cell before offset [n]. *)
    Definition past (n : nat) (l : list (nat * nat * char)) : term :=
      match n with O => mkTerm r0 0 l Ground | S m => mkTerm (r0 + m / W) (S (m mod W)) l Ground end.
    Definition up (n : nat) : nat := if n mod W =? 0 then n else (n / W + 1) * W.
    Definition ostep (n : nat) (c : char) : nat := if N.eqb c c_nl then up n + ind else S n.
    Definition endn (n : nat) (t : text) : nat := fold_left ostep t n.
    Lemma endn_cons : forall n c t, endn n (c :: t) = endn (ostep n c) t.
    Proof. reflexivity. Qed.
    Fixpoint cells (n : nat) (t : text) : list (nat * nat * char) :=
      match t with
      | [] => []
      | c :: t' => if N.eqb c c_nl then cells (up n + ind) t' else (fresh n, c) :: cells (S n) t'
      end.

    Lemma succ_div : forall n, (S n mod W = 0 /\ S n / W = S (n / W) /\ S (n mod W) = W) \/
                               (S n mod W = S (n mod W) /\ S n / W = n / W /\ S (n mod W) < W).
    Proof.
      intro n. pose proof (Nat.div_mod n W ltac:(lia)) as H. pose proof (Nat.mod_upper_bound n W ltac:(lia)) as Hm.
      destruct (Nat.eq_dec (S (n mod W)) W) as [e|e]; [left|right].
      - assert (K : S n = W * S (n / W) + 0) by lia. split; [|split; [|exact e]].
        + symmetry. apply (Nat.mod_unique _ W (S (n / W))); lia.
        + symmetry. apply (Nat.div_unique _ W _ 0); lia.
      - split; [|split; [|lia]].
        + symmetry. apply (Nat.mod_unique _ W (n / W)); lia.
        + symmetry. apply (Nat.div_unique _ W _ (S (n mod W))); lia.
    Qed.
    Lemma after_fresh : forall n, after_cell W (fresh n) = fresh (S n).
    Proof.
      intro n. unfold after_cell, fresh. cbn [fst snd]. destruct (succ_div n) as [[-> [-> K]]|[-> [-> K]]].
      - rewrite K, Nat.eqb_refl. f_equal. lia.
      - destruct (Nat.eqb_spec (S (n mod W)) W); [lia|reflexivity].
    Qed.
    Lemma past_char : forall n l c, nar c -> feed W cw (past n l) c = past (S n) (l ++ [(fresh n, c)]).
    Proof.
      intros n l c Hc. destruct n as [|m]; cbn [past]; rewrite feed_narrow by exact Hc.
      - destruct (Nat.ltb_spec W (0 + 1)); [lia|]. unfold fresh. rewrite Nat.div_0_l, Nat.mod_0_l by lia. rewrite Nat.add_0_r. reflexivity.
      - unfold fresh. destruct (succ_div m) as [[K1 [K2 K3]]|[K1 [K2 K3]]]; rewrite K1, K2.
        + destruct (Nat.ltb_spec W (S (m mod W) + 1)); [|lia]. rewrite Nat.add_succ_r. reflexivity.
        + destruct (Nat.ltb_spec W (S (m mod W) + 1)); [lia|]. rewrite Nat.add_1_r. reflexivity.
    Qed.
    Lemma narrow_nl : ~ nar c_nl. Proof. intros [H _]. unfold c_nl in H. lia. Qed.
    Lemma narrow_not_nl : forall c, nar c -> N.eqb c c_nl = false.
    Proof. intros c H. apply N.eqb_neq. intros ->. exact (narrow_nl H). Qed.
    Lemma past_styled : forall t v, styled nar t v -> forall n l, feeds (past n l) t = past (endn n v) (l ++ cells n v).
    Proof.
      induction 1 as [|c t v Hc H IH|p t v Hp H IH]; intros n l.
      - rewrite app_nil_r. reflexivity.
      - change (feeds (past n l) (c :: t)) with (feeds (feed W cw (past n l) c) t). rewrite past_char by exact Hc. rewrite IH.
        rewrite endn_cons. cbn [cells]. unfold ostep. rewrite (narrow_not_nl c Hc), <- app_assoc. reflexivity.
      - replace (c_esc :: ch "[" :: p ++ ch "m" :: t) with (csi (p ++ [ch "m"]) ++ t) by (unfold csi; cbn [app]; rewrite <- app_assoc; reflexivity).
        rewrite feeds_app. replace (feeds (past n l) (csi (p ++ [ch "m"]))) with (past n l); [apply IH|].
        destruct n; cbn [past]; symmetry; apply feeds_style; exact Hp.
    Qed.
    Lemma past_crlf : forall n l, 0 < n -> feeds (past n l) (render_tok TCRLF) = mkTerm (r0 + up n / W) 0 l Ground.
    Proof.
      intros [|m] l H; [lia|]. cbn [past]. rewrite feeds_crlf. unfold up. destruct (succ_div m) as [[K1 [K2 K3]]|[K1 [K2 K3]]]; rewrite K1.
      - rewrite Nat.eqb_refl, K2. f_equal. lia.
      - cbn [Nat.eqb]. rewrite Nat.div_mul, K2 by lia. f_equal. lia.
    Qed.
    Lemma up_mod : forall n, up n mod W = 0.
    Proof. intro n. unfold up. destruct (Nat.eqb_spec (n mod W) 0); [assumption|apply Nat.mod_mul; lia]. Qed.
    Lemma up_exact : forall n, up n = W * (up n / W).
    Proof. intro n. pose proof (Nat.div_mod (up n) W ltac:(lia)). rewrite up_mod in H. lia. Qed.
    Lemma up_plus : forall n k, k < W -> (up n + k) / W = up n / W /\ (up n + k) mod W = k.
    Proof.
      intros n k Hk. pose proof (up_exact n) as H. split.
      - symmetry. apply (Nat.div_unique _ W _ k); lia.
      - symmetry. apply (Nat.mod_unique _ W (up n / W)); lia.
    Qed.
    Lemma past_indent : forall n l, 0 < n -> 0 < ind < W -> (N.of_nat W < 65536)%N ->
      feeds (feeds (past n l) (render_tok TCRLF)) (render_tok (TRight (u16_of ind))) = past (up n + ind) l.
    Proof.
      intros n l Hn Hi HW2. rewrite past_crlf by exact Hn. rewrite feeds_right.
      assert (Hm : mov (u16_of ind) = ind).
      { unfold mov, u16_of. rewrite N.mod_small by lia. rewrite N.max_r by lia. apply Nat2N.id. }
      rewrite Hm. replace (Nat.min (Nat.min 0 (W - 1) + ind) (W - 1)) with ind by lia.
      destruct ind as [|i] eqn:Ei; [lia|]. rewrite Nat.add_succ_r. cbn [past]. destruct (up_plus n i ltac:(lia)) as [-> ->]. reflexivity.
    Qed.

    Lemma laid_cells : forall t n, (In c_nl t -> ind < W) -> laid W ind (fresh n) t (cells n t) (fresh (endn n t)).
    Proof.
      induction t as [|c t IH]; intros n Hi; [constructor|]. rewrite endn_cons. cbn [cells]. unfold ostep.
      destruct (N.eqb_spec c c_nl) as [->|Hc].
      - unfold fresh at 1. specialize (Hi (or_introl eq_refl)) as Hi'. destruct (up_plus n ind Hi') as [K1 K2].
        specialize (IH (up n + ind) (fun _ => Hi')). apply laid_line.
        replace (if n mod W =? 0 then r0 + n / W else S (r0 + n / W), ind) with (fresh (up n + ind)); [exact IH|].
        unfold fresh. rewrite K1, K2. unfold up. destruct (n mod W =? 0); [reflexivity|]. rewrite Nat.div_mul by lia. f_equal. lia.
      - constructor; [exact Hc|]. rewrite after_fresh. apply IH. intro K. apply Hi. right. exact K.
    Qed.
    Lemma cells_app : forall a b n, cells n (a ++ b) = cells n a ++ cells (endn n a) b.
    Proof.
      induction a as [|c a IH]; intros b n; [reflexivity|]. cbn [app cells]. rewrite endn_cons. unfold ostep.
      destruct (N.eqb c c_nl); cbn [app]; rewrite IH; reflexivity.
    Qed.
    Lemma endn_app : forall a b n, endn n (a ++ b) = endn (endn n a) b.
    Proof. intros a b n. apply fold_left_app. Qed.
    Lemma endn_flat : forall t n, Forall nar t -> endn n t = n + length t.
    Proof.
      induction t as [|c t IH]; intros n H; [cbn; lia|]. inversion H as [|? ? Hc Ht]; subst. rewrite endn_cons. cbn [length]. unfold ostep.
      rewrite (narrow_not_nl c Hc). rewrite IH by exact Ht. lia.
    Qed.
    Lemma up_ge : forall n, n <= up n.
    Proof.
      intro n. unfold up. destruct (n mod W =? 0); [lia|]. pose proof (Nat.div_mod n W ltac:(lia)).
      pose proof (Nat.mod_upper_bound n W ltac:(lia)). lia.
    Qed.
    Lemma endn_ge : forall t n, n <= endn n t.
    Proof.
      induction t as [|c t IH]; intro n; [apply le_n|]. rewrite endn_cons.
      specialize (IH (ostep n c)). unfold ostep in *. pose proof (up_ge n). destruct (N.eqb c c_nl); lia.
    Qed.

    (** * Widths and offsets *)
    Lemma calc_from : forall U, (forall x, Forall nar x -> u_width U x = length x) ->
      forall t, Forall (fun c => c = c_nl \/ nar c) t -> forall n, exists l ls, split_on c_nl t = l :: ls /\ Forall nar l /\ Forall (Forall nar) ls /\
      fold_left (fun total line => (if negb (total mod W =? 0) then (total / W + 1) * W else total) + (ind + line)) (map (u_width U) ls) (n + length l) = endn n t.
    Proof.
      intros U HU. induction t as [|c t IH]; intros Ht n.
      - exists [], []. cbn. repeat split; try constructor. lia.
      - inversion Ht as [|? ? Hc Ht']; subst. cbn [split_on]. rewrite endn_cons. unfold ostep. destruct (N.eqb_spec c c_nl) as [->|Hne].
        + destruct (IH Ht' (up n + ind)) as [l [ls [K1 [K2 [K3 K4]]]]]. exists [], (split_on c_nl t). rewrite K1.
          split; [reflexivity|]. split; [constructor|]. split; [constructor; assumption|]. cbn [map fold_left length].
          rewrite Nat.add_0_r. rewrite (HU l K2). rewrite <- K4. f_equal. unfold up. destruct (n mod W =? 0); cbn [negb]; lia.
        + destruct Hc as [Hc|Hc]; [contradiction|]. destruct (IH Ht' (S n)) as [l [ls [K1 [K2 [K3 K4]]]]]. rewrite K1.
          exists (c :: l), ls. split; [reflexivity|]. split; [constructor; assumption|]. split; [exact K3|]. rewrite <- K4. cbn [length]. f_equal. lia.
    Qed.
    Lemma calc_endn : forall U, (forall x, Forall nar x -> u_width U x = length x) ->
      forall t, Forall (fun c => c = c_nl \/ nar c) t -> calc_width ind (map (u_width U) (split_on c_nl t)) W = endn ind t.
    Proof.
      intros U HU t Ht. destruct (calc_from U HU t Ht ind) as [l [ls [K1 [K2 [K3 K4]]]]]. rewrite K1. unfold calc_width. cbn [map fold_left].
      rewrite Nat.mod_0_l by lia. cbn [Nat.eqb negb]. rewrite (HU l K2), <- K4. reflexivity.
    Qed.
    Lemma split_narrow : forall t, Forall (fun c => c = c_nl \/ nar c) t -> Forall (Forall nar) (split_on c_nl t).
    Proof.
      induction t as [|c t IH]; intro H; cbn [split_on]; [repeat constructor|]. inversion H as [|? ? Hc Ht]; subst. specialize (IH Ht).
      destruct (N.eqb_spec c c_nl) as [->|Hne]; [constructor; [constructor|exact IH]|]. destruct Hc as [Hc|Hc]; [contradiction|].
      destruct (split_on c_nl t) as [|p ps]; [constructor; [constructor; [exact Hc|constructor]|constructor]|]. inversion IH; subst. constructor; [constructor; assumption|assumption].
    Qed.
    Lemma in_glue : forall (x y : text) ls, In c_nl (glue c_nl (x :: y :: ls)).
    Proof. intros x y ls. rewrite glue_cons_nonempty by discriminate. apply in_or_app. right. left. reflexivity. Qed.

    (** * The lines *)
    Context (clos : option (text -> text)).
    Context (Hclos : forall f x, clos = Some f -> Forall nar x -> styled nar (f x) x).
    Lemma styled_id : forall x, Forall nar x -> styled nar x x.
    Proof. induction 1; constructor; assumption. Qed.
    Lemma styled_clos : forall x, Forall nar x -> styled nar (match clos with Some f => f x | None => x end) x.
    Proof. intros x H. destruct clos as [f|] eqn:E; [eapply Hclos; [reflexivity|exact H]|apply styled_id; exact H]. Qed.
    Lemma past_line : forall n l x, Forall nar x -> feeds (past n l) (match clos with Some f => f x | None => x end) = past (endn n x) (l ++ cells n x).
    Proof. intros n l x H. apply past_styled, styled_clos, H. Qed.
    Lemma past_plain : forall n l x, Forall nar x -> feeds (past n l) x = past (endn n x) (l ++ cells n x).
    Proof. intros n l x H. apply past_styled, styled_id, H. Qed.
    Lemma past_fg : forall n l k, feeds (past n l) (render_tok (TFg k)) = past n l.
    Proof. intros n l k. destruct n; apply feeds_fg. Qed.
    Lemma past_fgreset : forall n l, feeds (past n l) (render_tok TFgReset) = past n l.
    Proof. intros n l. destruct n; apply feeds_fgreset. Qed.
    Lemma print_shows : forall srch lines i k rem toks,
      print_lines srch clos ind i k rem lines = Val toks -> lines <> [] -> i + length lines = k -> Forall (Forall nar) lines ->
      (1 < length lines -> 0 < ind < W) -> (N.of_nat W < 65536)%N ->
      forall T n l, (1 < length lines -> 0 < n) -> shows T (if 0 <? i then [TRight (u16_of ind)] else []) = past n l ->
      shows T toks = past (endn n (glue c_nl lines)) (l ++ cells n (glue c_nl lines)).
    Proof.
      intros srch lines. induction lines as [|line lines IH]; intros i k rem toks Hp Hne Hlen Hn Hi HW2 T n l Hpos HT; [congruence|].
      inversion Hn as [|? ? Hl Hls]; subst. cbn [print_lines] in Hp.
      set (pre := if 0 <? i then [TRight (u16_of ind)] else []) in *.
      set (fin := if S i <? i + length (line :: lines) then [TCRLF] else []) in *.
      assert (Hbody : forall body rest rem', print_lines srch clos ind (S i) (i + length (line :: lines)) rem' lines = Val rest ->
                shows (past n l) body = past (endn n line) (l ++ cells n line) -> toks = pre ++ body ++ fin ++ rest ->
                shows T toks = past (endn n (glue c_nl (line :: lines))) (l ++ cells n (glue c_nl (line :: lines)))).
      { intros body rest rem' Hr Hb ->. rewrite shows_app, HT, shows_app, Hb, shows_app. destruct lines as [|line2 lines].
        - cbn [print_lines] in Hr. injection Hr as <-. unfold fin. cbn [length]. destruct (Nat.ltb_spec (S i) (i + 1)); [lia|]. reflexivity.
        - rewrite glue_cons_nonempty by discriminate. unfold fin. cbn [length]. destruct (Nat.ltb_spec (S i) (i + S (S (length lines)))); [|lia].
          assert (Hlong : 1 < length (line :: line2 :: lines)) by (cbn; lia).
          pose proof (endn_ge line n) as Hg. specialize (Hpos Hlong). specialize (Hi Hlong).
          rewrite shows_one. rewrite (IH (S i) _ _ _ Hr ltac:(discriminate) ltac:(cbn; lia) Hls ltac:(intro; exact Hi) HW2 _
            (up (endn n line) + ind) (l ++ cells n line)).
          + rewrite endn_app, endn_cons, cells_app. cbn [cells]. unfold ostep. rewrite N.eqb_refl, app_assoc. reflexivity.
          + lia.
          + change (0 <? S i) with true. cbv iota. rewrite shows_one. apply past_indent; [lia|exact Hi|exact HW2]. }
      destruct (rem =? 0).
      - destruct (print_lines srch clos ind (S i) (i + length (line :: lines)) 0 lines) as [r|] eqn:Er; [|discriminate]. injection Hp as <-.
        apply (Hbody [TStr line] r 0 Er); [|reflexivity]. rewrite shows_one. apply past_plain. exact Hl.
      - destruct (rem <? blen line).
        + destruct (bsplit line rem) as [[a b]|] eqn:Eb; [|discriminate]. cbn [rbind] in Hp.
          destruct (print_lines srch clos ind (S i) (i + length (line :: lines)) 0 lines) as [r|] eqn:Er; [|discriminate]. injection Hp as <-.
          apply bsplit_Val in Eb as [-> _]. apply Forall_app in Hl as [Ha Hb].
          apply (Hbody ((if srch then [TFg 3] else []) ++ [TStr (match clos with Some f => f a | None => a end)]
                        ++ (if srch then [] else [TFg 3]) ++ [TStr b]) r 0 Er); [|rewrite <- !app_assoc; reflexivity].
          rewrite endn_app, cells_app.
          destruct srch; cbn [app]; repeat first [rewrite shows_str | rewrite shows_cons, past_fg | rewrite past_line by exact Ha
            | rewrite past_plain by exact Hb]; rewrite app_assoc; reflexivity.
        + destruct (print_lines srch clos ind (S i) (i + length (line :: lines)) (rem - blen line) lines) as [r|] eqn:Er; [|discriminate]. injection Hp as <-.
          apply (Hbody ((if srch then [TFg 3] else []) ++ [TStr (match clos with Some f => f line | None => line end)]) r _ Er);
            [|rewrite <- !app_assoc; reflexivity].
          destruct srch; cbn [app]; rewrite ?shows_cons, ?past_fg; cbn [render_tok]; rewrite past_line by exact Hl; reflexivity.
    Qed.
  End Row.

  (** * Candidates above the prompt *)
  Definition calm (k : tok) : Prop :=
    match k with TStr x => ~ In c_esc x | TCRLF | TCR | TFg _ | TBg _ | TFgReset | TBgReset => True | _ => False end.
  Lemma calm_shows : forall l T, t_st T = Ground -> Forall calm l -> t_st (shows T l) = Ground /\ exists x, t_log (shows T l) = t_log T ++ x.
  Proof.
    induction l as [|k l IH]; intros T HT H; [split; [exact HT|exists []; rewrite app_nil_r; reflexivity]|].
    inversion H as [|? ? Hk Hl]; subst. rewrite shows_cons.
    assert (K : t_st (feeds T (render_tok k)) = Ground /\ exists x, t_log (feeds T (render_tok k)) = t_log T ++ x).
    { destruct T as [r c0 lg st]. cbn [t_st] in HT. subst st.
      destruct k; cbn [calm] in Hk; try contradiction;
        [apply feeds_ground; [reflexivity|exact Hk]|..];
        rewrite ?feeds_cr, ?feeds_crlf, ?feeds_fg, ?feeds_bg; (split; [reflexivity|exists []; rewrite app_nil_r; reflexivity]). }
    destruct K as [K1 [x1 K2]]. destruct (IH _ K1 Hl) as [K3 [x2 K4]]. split; [exact K3|]. exists (x1 ++ x2). rewrite K4, K2, app_assoc. reflexivity.
  Qed.
  Lemma calm_pad : forall com n, ~ In c_esc com -> calm (TStr (pad com n)).
  Proof.
    intros com n H K. apply in_app_or in K as [K|K]; [exact (H K)|]. apply repeat_spec in K. discriminate K.
  Qed.
  Lemma calm_comps : forall cw0 cols hl l i index toks, print_comps cw0 cols i index hl l = Val toks -> Forall (fun x => ~ In c_esc x) l -> Forall calm toks.
  Proof.
    intros cw0 cols hl. induction l as [|com l IH]; intros i index toks H Hl; cbn [print_comps] in H; [injection H as <-; constructor|].
    inversion Hl as [|? ? Hc Hl']; subst.
    set (item := if match hl with Some h => index =? h | None => false end
           then [TFg 0; TBg 7; TStr (pad com cw0); TBgReset; TFgReset] else [TStr (pad com cw0)]) in *.
    assert (Hit : Forall calm item).
    { unfold item. destruct (match hl with Some h => index =? h | None => false end); repeat constructor; apply calm_pad; exact Hc. }
    destruct (i =? cols).
    - destruct (print_comps cw0 cols 1 (S index) hl l) as [r|] eqn:Er; [|discriminate]. injection H as <-.
      constructor; [exact I|]. apply Forall_app. split; [exact Hit|eapply IH; eassumption].
    - destruct (cols <? i); [discriminate|]. destruct (print_comps cw0 cols (S i) (S index) hl l) as [r|] eqn:Er; [|discriminate]. injection H as <-.
      apply Forall_app. split; [exact Hit|eapply IH; eassumption].
  Qed.

  (** * The end of a redraw *)
  Lemma mov_u16 : forall n, 0 < n -> (N.of_nat n < 65536)%N -> mov (u16_of n) = n.
  Proof. intros n H1 H2. unfold mov, u16_of. rewrite N.mod_small by exact H2. rewrite N.max_r by lia. apply Nat2N.id. Qed.
  Lemma last_row : forall n, (n + W) / W = S (n / W).
  Proof. intro n. replace (n + W) with (n + 1 * W) by lia. rewrite Nat.div_add by lia. lia. Qed.
  Lemma place_shows : forall r0 total tc l up2,
    0 < total -> (N.of_nat (total / W) < 65536)%N -> (N.of_nat W < 65536)%N ->
    (if (tc + W) / W <? (total + W) / W then Val [TUp (u16_of ((total + W) / W - (tc + W) / W))]
     else if (total + W) / W <? (tc + W) / W then Pan PUnreach else Val []) = Val up2 ->
    let col := (Z.of_nat total - Z.of_nat tc - (Z.of_nat ((total + W) / W) - Z.of_nat ((tc + W) / W)) * Z.of_nat W)%Z in
    shows (past r0 total l) ((if total mod W =? 0 then [TCRLF] else []) ++ up2 ++
       (if (0 <? col)%Z then [TLeft (u16_of (Z.to_nat col))] else if (col <? 0)%Z then [TRight (u16_of (Z.to_nat (- col)))] else []))
    = mkTerm (r0 + tc / W) (tc mod W) l Ground.
  Proof.
    intros r0 total tc l up2 Hp Hrows HW2 Hup col.
    assert (Hcol : col = (Z.of_nat (total mod W) - Z.of_nat (tc mod W))%Z).
    { unfold col. rewrite !last_row. pose proof (Nat.div_mod total W ltac:(lia)). pose proof (Nat.div_mod tc W ltac:(lia)). nia. }
    clearbody col. subst col. rewrite !last_row in Hup.
    pose proof (Nat.mod_upper_bound total W ltac:(lia)) as Hm. pose proof (Nat.mod_upper_bound tc W ltac:(lia)) as Hmc.
    rewrite shows_app.
    assert (H1 : shows (past r0 total l) (if total mod W =? 0 then [TCRLF] else []) = mkTerm (r0 + total / W) (total mod W) l Ground).
    { destruct total as [|m]; [lia|]. destruct (succ_div m) as [[K1 [K2 K3]]|[K1 [K2 K3]]]; rewrite K1.
      - rewrite Nat.eqb_refl, shows_one. cbn [past]. rewrite feeds_crlf, K2, Nat.add_succ_r. reflexivity.
      - cbn [Nat.eqb past]. rewrite K2. reflexivity. }
    rewrite H1, shows_app. clear H1 Hp. revert Hup Hrows Hm Hmc. generalize (total / W), (total mod W), (tc / W), (tc mod W).
    clear total tc. intros tq tm cq cm Hup Hrows Hm Hmc.
    assert (H2 : shows (mkTerm (r0 + tq) tm l Ground) up2 = mkTerm (r0 + cq) tm l Ground).
    { destruct (Nat.ltb_spec (S (cq)) (S (tq))) as [K|K].
      - injection Hup as <-. rewrite shows_one, feeds_up. rewrite mov_u16; [f_equal; lia|lia|lia].
      - destruct (Nat.ltb_spec (S (tq)) (S (cq))); [discriminate|]. injection Hup as <-.
        replace tq with cq by lia. reflexivity. }
    rewrite H2. destruct (Z.ltb_spec 0 (Z.of_nat tm - Z.of_nat cm)) as [K|K].
    - rewrite shows_one, feeds_left, mov_u16 by lia. f_equal. lia.
    - destruct (Z.ltb_spec (Z.of_nat tm - Z.of_nat cm) 0) as [K2|K2].
      + rewrite shows_one, feeds_right, mov_u16 by lia. f_equal. lia.
      + replace cm with tm by lia. reflexivity.
  Qed.

  (** * The prompt *)
  Lemma styled_narrow : forall t v, styled nar t v -> Forall nar v.
  Proof. induction 1; [constructor|constructor; assumption|assumption]. Qed.
  Lemma styled_nonl : forall t v, styled nar t v -> ~ In c_nl t.
  Proof.
    induction 1 as [|c t v Hc H IH|p t v Hp H IH]; [auto| |].
    - intros [->|K]; [exact (narrow_nl Hc)|auto].
    - intros [K|[K|K]]; [discriminate K|discriminate K|]. apply in_app_or in K as [K|[K|K]]; [|discriminate K|auto].
      rewrite Forall_forall in Hp. specialize (Hp _ K). unfold c_nl in Hp. lia.
  Qed.
  Lemma styled_stripped : forall t v, styled nar t v -> stripped t v.
  Proof.
    induction 1 as [|c t v Hc H IH|p t v Hp H IH].
    - constructor.
    - constructor; [|exact IH]. intros ->. destruct Hc as [K _]. unfold c_esc in K. lia.
    - replace (c_esc :: ch "[" :: p ++ ch "m" :: t) with ((c_esc :: ch "[" :: p ++ [ch "m"]) ++ t) by (cbn [app]; rewrite <- app_assoc; reflexivity).
      constructor; [|exact IH]. constructor; [|vm_compute; right; split; discriminate].
      intros c Hin K. rewrite Forall_forall in Hp. specialize (Hp c Hin). unfold letter in K. lia.
  Qed.
  Lemma prompt_width : forall U t v, (forall x, Forall nar x -> u_width U x = length x) -> styled nar t v ->
    last_prompt_line_width U t = length v.
  Proof.
    intros U t v HU H. rewrite (prompt_width_spec U t t v); [apply HU, (styled_narrow t); exact H| |apply styled_stripped; exact H].
    split; [exact (styled_nonl _ _ H)|left; reflexivity].
  Qed.

  (** * A redraw *)
  Lemma range_Val : forall U b k x, range_width U b 0 k = Val x -> x = map (u_width U) (split_on c_nl (firstn k (data b))).
  Proof.
    intros U b k x H. unfold range_width in H. destruct (buf_range b 0 k) as [y|] eqn:E; [|discriminate]. injection H as <-.
    unfold buf_range, slice in E. destruct (_ && _); [|discriminate]. injection E as <-. rewrite Nat.sub_0_r. reflexivity.
  Qed.
  Lemma width_Val : forall U b x, BufferModel.buf_width U b = Val x -> x = map (u_width U) (split_on c_nl (data b)).
  Proof. intros U b x H. apply range_Val in H. unfold num_chars in H. rewrite firstn_all in H. exact H. Qed.

  Lemma render_shows : forall U w prompt rpw buf s toks tcl pv t,
    display_render U true W w prompt rpw buf s = Val (toks, tcl) ->
    drawable W cw U prompt pv t s ->
    t = match ed_sugg s with Some g => data g | None => data buf end ->
    exists tc comp_lines,
      (exists x, (if is_search s then calc_width rpw (map (u_width U) (split_on c_nl x)) W
                  else calc_width (length pv) (map (u_width U) (split_on c_nl x)) W) = tc /\
         x = firstn (ed_cursor s) (match ed_sugg s with Some g => if ed_cursor s <? num_chars g then data g else data buf | None => data buf end)) /\
      tcl = S (tc / W) + comp_lines /\
      (ed_hint s = None -> comp_lines = 0) /\
      forall T, t_st T = Ground -> exists r0 L0,
        shows T toks = mkTerm (r0 + tc / W) (tc mod W) (t_log T ++ L0 ++ cells r0 (length pv) 0 (pv ++ t)) Ground /\
        (ed_hint s = None -> L0 = [] /\ ((N.of_nat (ed_tcl s) < 65536)%N -> r0 = t_row T - (ed_tcl s - 1))).
  Proof.
    intros U w prompt rpw buf s toks tcl pv t H D Et. unfold display_render in H.
    rewrite (prompt_width U prompt pv (dr_measure _ _ _ _ _ _ _ D) (dr_prompt _ _ _ _ _ _ _ D)) in H.
    destruct (BufferModel.buf_width U buf) as [own|] eqn:E1; [|discriminate]. cbn [rbind] in H.
    assert (E2 : exists bw, match ed_sugg s with Some g => BufferModel.buf_width U g | None => Val own end = Val bw /\ bw = map (u_width U) (split_on c_nl t)).
    { subst t. destruct (ed_sugg s) as [g|].
      - destruct (BufferModel.buf_width U g) as [bw|] eqn:E; [|discriminate]. exists bw. split; [reflexivity|apply width_Val; exact E].
      - exists own. split; [reflexivity|apply width_Val; exact E1]. }
    destruct E2 as [bw [E2 Ebw]]. rewrite E2 in H. cbn [rbind] in H.
    match type of H with rbind ?m _ = _ => assert (E3 : exists x, m = Val (map (u_width U) (split_on c_nl x)) /\
      x = firstn (ed_cursor s) (match ed_sugg s with Some g => if ed_cursor s <? num_chars g then data g else data buf | None => data buf end)) end.
    { destruct (ed_sugg s) as [g|]; [destruct (ed_cursor s <? num_chars g)|].
      - destruct (range_width U g 0 (ed_cursor s)) eqn:E; [|discriminate]. apply range_Val in E. subst. eexists. split; reflexivity.
      - destruct (range_width U buf 0 (ed_cursor s)) eqn:E; [|discriminate]. apply range_Val in E. subst. eexists. split; reflexivity.
      - destruct (range_width U buf 0 (ed_cursor s)) eqn:E; [|discriminate]. apply range_Val in E. subst. eexists. split; reflexivity. }
    destruct E3 as [x [E3 Ex]]. rewrite E3 in H. cbn [rbind] in H. cbv zeta in H.
    set (tc := if is_search s then calc_width rpw (map (u_width U) (split_on c_nl x)) W else calc_width (length pv) (map (u_width U) (split_on c_nl x)) W) in *.
    rewrite Ebw, (calc_endn (length pv) U (dr_measure _ _ _ _ _ _ _ D) t (dr_text _ _ _ _ _ _ _ D)) in H.
    set (total := endn (length pv) (length pv) t) in *.
    destruct (if 1 <? ed_tcl s then _ else _) as [t_up|] eqn:Eup in H; [|discriminate]. cbn [rbind] in H.
    destruct (match ed_hint s with Some (comps, i) => _ | None => _ end) as [[t_comp cl]|] eqn:Ecomp in H; [|discriminate]. cbn [rbind] in H.
    match type of H with rbind (print_lines _ _ _ _ (length ?l) _ _) _ = _ => set (lines := l) in * end.
    destruct (print_lines (is_search s) (ed_closure s) (length pv) 0 (length lines) (num_bytes buf) lines) as [t_lines|] eqn:Elines; [|discriminate].
    cbn [rbind] in H.
    destruct (if (tc + W) / W <? (total + W) / W then _ else _) as [up2|] eqn:Eup2 in H; [|discriminate]. cbn [rbind] in H.
    injection H as <- <-. exists tc, cl. split; [exists x; split; [reflexivity|exact Ex]|]. split; [rewrite last_row; lia|].
    split. { intro Hh. rewrite Hh in Ecomp. injection Ecomp as _ <-. reflexivity. }
    assert (Hlines : lines = split_on c_nl t) by (unfold lines; subst t; destruct (ed_sugg s); reflexivity).
    pose proof (dr_width _ _ _ _ _ _ _ D) as HW2.
    assert (Hpv : endn (length pv) 0 pv = length pv) by (rewrite endn_flat by (eapply styled_narrow, (dr_prompt _ _ _ _ _ _ _ D)); reflexivity).
    assert (Htotal : endn (length pv) 0 (pv ++ t) = total) by (rewrite endn_app, Hpv; reflexivity).
    assert (Hpos : 0 < total).
    { unfold total. pose proof (endn_ge (length pv) t (length pv)) as Hg. destruct pv as [|c0 pv0]; [|cbn [length] in *; lia].
      pose proof (dr_some _ _ _ _ _ _ _ D) as Hs. pose proof (dr_lines _ _ _ _ _ _ _ D) as Hl. cbn [app length] in *. destruct t as [|c t0]; [congruence|].
      rewrite endn_cons in *. unfold ostep in *. destruct (N.eqb_spec c c_nl) as [->|_]; [exfalso; specialize (Hl (or_introl eq_refl)); lia|].
      pose proof (endn_ge 0 t0 1). lia. }
    assert (Hrows : (N.of_nat (total / W) < 65536)%N).
    { assert (Hin : In c_nl (pv ++ t) -> length pv < W).
      { intro K. apply in_app_or in K as [K|K]; [|apply (dr_lines _ _ _ _ _ _ _ D) in K; lia].
        pose proof (styled_narrow _ _ (dr_prompt _ _ _ _ _ _ _ D)) as F. rewrite Forall_forall in F. destruct (narrow_nl (F _ K)). }
      pose proof (laid_cells 0 (length pv) (pv ++ t) 0 Hin) as K. unfold fresh at 1 in K. rewrite Nat.div_0_l, Nat.mod_0_l in K by lia.
      pose proof (dr_rows _ _ _ _ _ _ _ D _ _ K) as K2. rewrite Htotal in K2. exact K2. }
    intros [r k lg st] HT. cbn [t_st] in HT. subst st. cbn [t_log t_row].
    change ([TModes] ++ t_up ++ [TCR; TClearAfter] ++ t_comp ++ [TStr prompt] ++ t_lines ++ ?z)
      with (TModes :: t_up ++ TCR :: TClearAfter :: t_comp ++ TStr prompt :: t_lines ++ z).
    rewrite shows_cons, feeds_modes, shows_app.
    assert (Hup : exists ru, (exists ku, shows (mkTerm r k lg Ground) t_up = mkTerm ru ku lg Ground) /\ ((N.of_nat (ed_tcl s) < 65536)%N -> ru = r - (ed_tcl s - 1))).
    { destruct (Nat.ltb_spec 1 (ed_tcl s)) as [K|K].
      - cbv zeta in Eup. destruct (u16_of (ed_tcl s) =? 0)%N eqn:E0; [discriminate|]. injection Eup as <-. rewrite shows_one, feeds_up. eexists.
        split; [eexists; reflexivity|]. intro Hb. f_equal. unfold mov, u16_of. rewrite N.mod_small by exact Hb. rewrite N.max_r by lia. lia.
      - injection Eup as <-. exists r. split; [exists k; reflexivity|]. intros _. lia. }
    destruct Hup as [ru [[ku ->] Hru]]. rewrite shows_cons, feeds_cr, shows_cons, feeds_clear, shows_app.
    assert (Hcomp : exists r0 L0, shows (mkTerm ru 0 lg Ground) t_comp = past r0 0 (lg ++ L0) /\ (ed_hint s = None -> L0 = [] /\ r0 = ru)).
    { destruct (ed_hint s) as [[comps i]|] eqn:Eh.
      - destruct (print_completion_list w comps i) as [[tk ln]|] eqn:Ep; [|discriminate]. cbn [rbind] in Ecomp. injection Ecomp as <- _.
        unfold print_completion_list in Ep. destruct (completion_cols w comps) as [cwd cols]. destruct (print_comps cwd cols 0 0 i comps) as [tk'|] eqn:Et'; [|discriminate].
        injection Ep as <- _. pose proof (calm_comps _ _ _ _ _ _ _ Et' (dr_hint _ _ _ _ _ _ _ D _ _ Eh)) as Hc.
        rewrite shows_app. destruct (calm_shows tk' (mkTerm ru 0 lg Ground) eq_refl Hc) as [K1 [L0 K2]].
        destruct (shows (mkTerm ru 0 lg Ground) tk') as [r1 k1 l1 st1]. cbn [t_st t_log] in K1, K2. subst. rewrite shows_one, feeds_crlf.
        exists (S r1), L0. split; [reflexivity|discriminate].
      - injection Ecomp as <- _. exists ru, []. rewrite app_nil_r. split; [reflexivity|auto]. }
    destruct Hcomp as [r0 [L0 [-> HL0]]]. exists r0, L0. split.
    2: { intro Hh. destruct (HL0 Hh) as [-> ->]. split; [reflexivity|exact Hru]. }
    rewrite shows_str, (past_styled r0 (length pv) prompt pv (dr_prompt _ _ _ _ _ _ _ D)), Hpv, shows_app.
    assert (Hlen : 1 < length lines -> 0 < length pv < W).
    { intro K. apply (dr_lines _ _ _ _ _ _ _ D). rewrite <- (glue_split c_nl t), <- Hlines. destruct lines as [|l1 [|l2 ls]]; cbn in K; try lia. apply in_glue. }
    assert (Hpr := print_shows r0 (length pv) (ed_closure s) (fun f x0 => dr_closure _ _ _ _ _ _ _ D f x0) _ _ _ _ _ _ Elines
      ltac:(rewrite Hlines; apply split_on_nonempty) eq_refl ltac:(rewrite Hlines; apply split_narrow; apply (dr_text _ _ _ _ _ _ _ D)) Hlen HW2
      (past r0 (length pv) ((lg ++ L0) ++ cells r0 (length pv) 0 pv)) (length pv) _ ltac:(intro K; apply Hlen in K; lia) eq_refl).
    rewrite Hpr, Hlines, glue_split. fold total. rewrite shows_app.
    match goal with |- shows (shows ?T ?l) _ = _ => replace (shows T l) with T end.
    2: { destruct (ed_sugg s); [symmetry; rewrite shows_one; apply past_fgreset|]. destruct (is_search s); [symmetry; rewrite shows_one; apply past_fgreset|reflexivity]. }
    rewrite (place_shows r0 total tc _ up2 Hpos Hrows HW2 Eup2). rewrite cells_app, Hpv, <- !app_assoc. reflexivity.
  Qed.
End Term.

Lemma suggestion_extends : forall s g b, current_autosuggestion s = Val (Some g) -> is_search s = false -> cur_buf s = Val b ->
  exists r, data g = data b ++ r.
Proof.
  intros s g b H Hs Hb. unfold current_autosuggestion in H. rewrite Hs in H. destruct (ed_hvalid s) eqn:Ev; [discriminate|].
  destruct (ed_showauto s); [|discriminate]. unfold cur_buf in Hb. rewrite Ev in Hb. destruct (ed_loc s) as [i|].
  - rewrite Hb in H. injection H as <-. exists []. rewrite app_nil_r. reflexivity.
  - injection Hb as <-. rewrite newest_match_data in H.
    pose proof (newest_match_spec (ed_history s) (Some (hist_len (ed_history s))) (data (ed_new s))) as N. cbv zeta in N.
    destruct (get_newest_match _ _ _) as [i|]; [|discriminate]. destruct N as [_ [_ [[x [N3 [c [r N4]]]] _]]].
    destruct (hist_get (ed_history s) i) as [gb|] eqn:Eg; [|discriminate]. injection H as <-.
    pose proof (hist_get_texts _ _ _ Eg) as Hx. rewrite N3 in Hx. injection Hx as ->. exists (c :: r). exact N4.
Qed.
Lemma refreshed_search : forall s, is_search (refreshed s) = is_search s.
Proof.
  intro s. unfold refreshed. destruct (is_search s) eqn:E; cbn [andb]; [|exact E]. destruct (ed_changed s); [|exact E].
  unfold refresh_search, is_search. edsimp. destruct (ed_fwd s); reflexivity.
Qed.
Lemma refreshed_same : forall s, ed_tcl (refreshed s) = ed_tcl s /\ ed_tty (refreshed s) = ed_tty s /\ ed_hint (refreshed s) = ed_hint s.
Proof. intro s. unfold refreshed. destruct (is_search s && ed_changed s); repeat split. Qed.

(** What [display] draws, from the state it leaves. *)
Lemma display_shows : forall W cw E s u s' prompt n pv t,
  display E s = ORet u s' -> terminal_width (e_size E) = Some W ->
  search_prompt (e_uni E) s' = Val (prompt, n) -> on_screen s' t -> drawable W cw (e_uni E) prompt pv t s' ->
  exists toks tc x b comp_lines, ed_tty s' = ed_tty s ++ toks /\ is_search s' = is_search s /\ cur_buf s' = Val b /\
    ed_cursor s' <= length (data b) /\
    (is_search s' = false -> exists r, t = data b ++ r) /\
    (if is_search s' then calc_width n (map (u_width (e_uni E)) (split_on c_nl x)) W
     else calc_width (length pv) (map (u_width (e_uni E)) (split_on c_nl x)) W) = tc /\
    x = firstn (ed_cursor s') (if ed_cursor s' <? length t then t else data b) /\
    ed_tcl s' = S (tc / W) + comp_lines /\ (ed_hint s' = None -> comp_lines = 0) /\
    forall T, t_st T = Ground -> exists r0 L0,
      shows W cw T toks = mkTerm (r0 + tc / W) (tc mod W) (t_log T ++ L0 ++ cells W r0 (length pv) 0 (pv ++ t)) Ground /\
      (ed_hint s' = None -> L0 = [] /\ ((N.of_nat (ed_tcl s) < 65536)%N -> r0 = t_row T - (ed_tcl s - 1))).
Proof.
  intros W cw E s u s' prompt n pv t H HW Hsp Hon D.
  assert (HW0 : 0 < W) by (destruct (e_size E) as [[|w]|]; cbn in HW; try discriminate; injection HW as <-; lia).
  destruct (display_impl_of _ _ _ _ H) as [g [Hg Hd]]. pose proof (display_impl_drawn E true (set_sugg g (refreshed s))) as K. rewrite Hd in K.
  destruct K as [prompt' [rpw [w [tw [b [toks [tcl [K1 [K2 [K3 [K4 [K5 K6]]]]]]]]]]]].
  rewrite K2, K3 in HW. injection HW as ->. edsimp_in K5. edsimp_in K6.
  set (s1 := refreshed s) in *. set (c := clamp_cursor (ed_noeol s1) (num_chars b) (ed_cursor s1)) in *.
  destruct (refreshed_same s) as [R1 [R2 R3]]. fold s1 in R1, R2, R3.
  assert (Eb : cur_buf s' = Val b) by (rewrite K6, cur_buf_shown; exact K4).
  assert (Eg : ed_sugg s' = g) by (rewrite K6; reflexivity).
  assert (Ec : ed_cursor s' = c) by (rewrite K6; reflexivity).
  assert (Es : is_search s' = is_search s1) by (rewrite K6; reflexivity).
  assert (Eh : ed_hint s' = ed_hint s1) by (rewrite K6; reflexivity).
  assert (Hsp' : search_prompt (e_uni E) s' = search_prompt (e_uni E) (set_sugg g s1)) by (rewrite K6; reflexivity).
  rewrite Hsp', K1 in Hsp. injection Hsp as -> ->.
  assert (Et : t = match g with Some y => data y | None => data b end).
  { unfold on_screen in Hon. rewrite Eg in Hon. destruct g as [y|]; [exact Hon|]. destruct Hon as [b' [Hb' ->]]. congruence. }
  assert (D' : drawable W cw (e_uni E) prompt pv t (set_cursor c (set_sugg g s1))).
  { destruct D as [D1 D2 D3 D4 D5 D6 D7 D8 D9]. constructor; try assumption.
    - intros f x Hf. apply D4. rewrite K6. exact Hf.
    - intros comps i Hc. apply (D5 comps i). rewrite Eh. exact Hc. }
  destruct (render_shows W cw HW0 _ _ _ _ _ _ _ _ _ _ K5 D' Et) as [tc [cl [[x [X1 X2]] [X3 [X4 X5]]]]]. edsimp_in X2. edsimp_in X4.
  exists toks, tc, x, b, cl.
  split; [rewrite K6; unfold shown; edsimp; rewrite R2; reflexivity|].
  split; [rewrite Es; apply refreshed_search|]. split; [exact Eb|].
  assert (Hle : c <= num_chars b) by (eapply clamp_le; apply clamp_idem).
  split; [rewrite Ec; exact Hle|].
  split. { intro Hns. rewrite Es in Hns. rewrite Et. destruct g as [y|]; [exact (suggestion_extends s1 y b Hg Hns K4)|exists []; rewrite app_nil_r; reflexivity]. }
  split; [rewrite Es; exact X1|]. split.
  { rewrite Ec, X2, Et. destruct g as [y|]; [reflexivity|]. destruct (c <? length (data b)); reflexivity. }
  split; [rewrite K6; exact X3|]. split; [rewrite Eh; exact X4|].
  intros T HT. destruct (X5 T HT) as [r0 [L0 [Y1 Y2]]]. exists r0, L0. split; [exact Y1|]. rewrite Eh. edsimp_in Y2. intro Hh. destruct (Y2 Hh) as [Z1 Z2].
  split; [exact Z1|]. intro Hb. rewrite <- R1 in *. apply Z2. exact Hb.
Qed.

Lemma cells_split : forall W r0 ind a b, 0 < W -> (In c_nl (a ++ b) -> ind < W) -> exists L1 L2 e,
  cells W r0 ind 0 (a ++ b) = L1 ++ L2 /\
  laid W ind (r0, 0) a L1 (r0 + endn W ind 0 a / W, endn W ind 0 a mod W) /\
  laid W ind (r0 + endn W ind 0 a / W, endn W ind 0 a mod W) b L2 e.
Proof.
  intros W r0 ind a b HW Hi. rewrite cells_app. exists (cells W r0 ind 0 a), (cells W r0 ind (endn W ind 0 a) b), (fresh W r0 (endn W ind (endn W ind 0 a) b)).
  split; [reflexivity|]. split.
  - pose proof (laid_cells W HW r0 ind a 0 ltac:(intro K; apply Hi, in_or_app; left; exact K)) as L. unfold fresh in L at 1. rewrite Nat.div_0_l, Nat.mod_0_l, Nat.add_0_r in L by lia. exact L.
  - apply (laid_cells W HW r0 ind b). intro K. apply Hi, in_or_app. right. exact K.
Qed.

(** * C42 *)
Lemma redraw_cursor : forall W cw E s u s' pv t,
  display E s = ORet u s' -> is_search s = false -> terminal_width (e_size E) = Some W ->
  on_screen s' t -> drawable W cw (e_uni E) (pr_string (ed_prompt s')) pv t s' ->
  exists toks, ed_tty s' = ed_tty s ++ toks /\
  (exists b r, cur_buf s' = Val b /\ t = data b ++ r /\ ed_cursor s' <= length (data b)) /\
  forall T, t_st T = Ground -> exists r L0 L1 L2 p e,
    shows W cw T toks = mkTerm (fst p) (snd p) (t_log T ++ L0 ++ L1 ++ L2) Ground /\
    laid W (length pv) (r, 0) (pv ++ firstn (ed_cursor s') t) L1 p /\
    laid W (length pv) p (skipn (ed_cursor s') t) L2 e /\
    (ed_hint s' = None -> L0 = [] /\ fst p = r + (ed_tcl s' - 1) /\
       ((N.of_nat (ed_tcl s) < 65536)%N -> r = t_row T - (ed_tcl s - 1))).
Proof.
  intros W cw E s u s' pv t H Hs HW Hon D.
  assert (HW0 : 0 < W) by (destruct (e_size E) as [[|w]|]; cbn in HW; try discriminate; injection HW as <-; lia).
  assert (Hs' : is_search s' = false).
  { pose proof (display_out E s) as K. rewrite H in K. destruct K as [g [b [tcl [cb [tty [_ [_ ->]]]]]]]. change (is_search (refreshed s) = false). rewrite refreshed_search. exact Hs. }
  assert (Hsp : search_prompt (e_uni E) s' = Val (pr_string (ed_prompt s'), 0)) by (unfold search_prompt; rewrite Hs'; reflexivity).
  destruct (display_shows W cw E s u s' _ _ pv t H HW Hsp Hon D) as [toks [tc [x [b [cl [K1 [K2 [K3 [K4 [K5 [K6 [K7 [K8 [K9 K10]]]]]]]]]]]]]].
  exists toks. split; [exact K1|]. destruct (K5 Hs') as [r Er].
  split; [exists b, r; split; [exact K3|]; split; [exact Er|exact K4]|].
  assert (Ex : x = firstn (ed_cursor s') t).
  { rewrite K7. destruct (Nat.ltb_spec (ed_cursor s') (length t)) as [L|L]; [reflexivity|]. rewrite Er in L |- *. rewrite app_length in L.
    rewrite firstn_all2 by lia. rewrite firstn_all2 by (rewrite app_length; lia). assert (r = []) by (destruct r; [reflexivity|cbn in L; lia]). subst r. rewrite app_nil_r. reflexivity. }
  rewrite Hs' in K6.
  assert (Hx : Forall (fun c => c = c_nl \/ narrow cw c) x).
  { rewrite Ex. pose proof (dr_text _ _ _ _ _ _ _ D) as F. rewrite <- (firstn_skipn (ed_cursor s') t) in F. apply Forall_app in F. apply F. }
  rewrite (calc_endn W cw HW0 (length pv) (e_uni E) (dr_measure _ _ _ _ _ _ _ D) x Hx) in K6.
  assert (Etc : endn W (length pv) 0 (pv ++ x) = tc).
  { rewrite endn_app, (endn_flat W cw HW0 _ pv) by (eapply styled_narrow, (dr_prompt _ _ _ _ _ _ _ D)). exact K6. }
  intros T HT. destruct (K10 T HT) as [r0 [L0 [Y1 Y2]]].
  assert (Hin : In c_nl ((pv ++ x) ++ skipn (ed_cursor s') t) -> length pv < W).
  { rewrite <- app_assoc, Ex, firstn_skipn. intro K. apply in_app_or in K as [K|K]; [|apply (dr_lines _ _ _ _ _ _ _ D) in K; lia].
    pose proof (styled_narrow cw _ _ (dr_prompt _ _ _ _ _ _ _ D)) as F. rewrite Forall_forall in F. destruct (narrow_nl W cw HW0 (F _ K)). }
  destruct (cells_split W r0 (length pv) (pv ++ x) (skipn (ed_cursor s') t) HW0 Hin) as [L1 [L2 [e [C1 [C2 C3]]]]].
  rewrite <- app_assoc, Ex, firstn_skipn in C1. rewrite Etc in C2, C3.
  exists r0, L0, L1, L2, (r0 + tc / W, tc mod W), e. cbn [fst snd]. rewrite C1 in Y1. split; [exact Y1|]. rewrite <- Ex. split; [exact C2|]. split; [exact C3|].
  intro Hh. destruct (Y2 Hh) as [Z1 Z2]. split; [exact Z1|]. split; [rewrite K8, (K9 Hh); lia|exact Z2].
Qed.

(** The search prompt. *)
Lemma styled_app : forall P a b v w, styled P a v -> styled P b w -> styled P (a ++ b) (v ++ w).
Proof.
  intros P a b v w H Hb. induction H as [|c t v Hc H IH|p t v Hp H IH]; cbn [app].
  - exact Hb.
  - constructor; assumption.
  - rewrite <- app_assoc. cbn [app]. constructor; assumption.
Qed.
Lemma styled_color : forall P p b w, Forall (fun c => (48 <= c <= 63)%N) p -> styled P b w -> styled P (csi (p ++ str "m") ++ b) w.
Proof. intros P p b w Hp Hb. unfold csi. cbn [app]. rewrite <- app_assoc. cbn [app]. apply (sty_seq P p b w Hp Hb). Qed.
Lemma ascii_text : forall cw t, (forall c, (32 <= c < 127)%N -> cw c = 1) -> forallb (fun c => (32 <=? c) && (c <? 127))%N t = true -> Forall (narrow cw) t.
Proof.
  intros cw t Hcw H. apply Forall_forall. intros c Hc. rewrite forallb_forall in H. specialize (H c Hc). apply andb_prop in H as [H1 H2].
  apply N.leb_le in H1. apply N.ltb_lt in H2. split; [exact H1|]. split; [unfold c_del; lia|apply Hcw; lia].
Qed.
Lemma decimal_narrow : forall cw n, (forall c, (32 <= c < 127)%N -> cw c = 1) -> Forall (narrow cw) (decimal n).
Proof.
  intros cw n Hcw. eapply Forall_impl; [|apply decimal_digits]. intros c Hc. unfold digit in Hc. split; [lia|]. split; [unfold c_del; lia|apply Hcw; lia].
Qed.
Lemma Val_pair : forall {A B} (x x' : A) (y y' : B), Val (x, y) = Val (x', y') -> x = x' /\ y = y'.
Proof. intros A B x x' y y' H. injection H. auto. Qed.
Lemma search_prompt_styled : forall cw U s b prompt n pre, (forall c, (32 <= c < 127)%N -> cw c = 1) ->
  is_search s = true -> search_prompt U s = Val (prompt, n) -> cur_buf s = Val b -> Forall (narrow cw) (data b) ->
  styled (narrow cw) (pr_prefix (ed_prompt s)) pre ->
  n = u_striplen U (pr_prefix (ed_prompt s)) + 9 /\
  exists r, styled (narrow cw) prompt (pre ++ str "(search)'" ++ data b ++ ch "`" :: r).
Proof.
  intros cw U s b prompt n pre Hcw Hs Hp Hb Hn Hpre. unfold search_prompt in Hp. rewrite Hs, Hb in Hp.
  set (hc := match ed_subset s with [] => (0, fg_str 1) | _ => (match ed_subloc s with Some p => p | None => 0 end + 1, fg_str 2) end) in Hp.
  assert (Hcol : exists p, snd hc = csi (p ++ str "m") /\ Forall (fun c => (48 <= c <= 63)%N) p).
  { unfold hc. destruct (ed_subset s); cbn [snd]; [exists (str "38;5;1")|exists (str "38;5;2")]; (split; [reflexivity|repeat constructor; vm_compute; discriminate]). }
  destruct hc as [hp col]. cbn [snd] in Hcol. destruct Hcol as [p [-> Hcp]]. cbn [rbind] in Hp. apply Val_pair in Hp as [<- <-]. split; [reflexivity|].
  exists (str " (" ++ decimal (N.of_nat hp) ++ str "/" ++ decimal (N.of_nat (length (ed_subset s))) ++ str "): ").
  apply styled_app; [exact Hpre|]. apply styled_app; [apply styled_id, ascii_text; [exact Hcw|reflexivity]|].
  apply styled_color; [exact Hcp|]. apply styled_app; [apply styled_id; exact Hn|].
  change (fg_reset) with (csi (str "39" ++ str "m")). apply styled_color; [repeat constructor; vm_compute; discriminate|].
  match goal with |- styled _ ?a ?b => replace a with b by reflexivity end. apply styled_id.
  change (ch "`" :: str " (" ++ ?z) with (str "` (" ++ z).
  repeat (apply Forall_app; split); try apply decimal_narrow; try exact Hcw; apply ascii_text; try exact Hcw; reflexivity.
Qed.
Lemma redraw_search : forall W cw E s u s' b prompt n pre pv t,
  display E s = ORet u s' -> is_search s = true -> terminal_width (e_size E) = Some W ->
  on_screen s' t -> search_prompt (e_uni E) s' = Val (prompt, n) -> drawable W cw (e_uni E) prompt pv t s' ->
  (forall c, (32 <= c < 127)%N -> cw c = 1) ->
  cur_buf s' = Val b -> Forall (narrow cw) (data b) -> ~ In c_nl t ->
  styled (narrow cw) (pr_prefix (ed_prompt s')) pre -> u_striplen (e_uni E) (pr_prefix (ed_prompt s')) = length pre ->
  exists toks q, ed_tty s' = ed_tty s ++ toks /\ ed_cursor s' <= length (data b) /\
  pv = pre ++ str "(search)'" ++ data b ++ ch "`" :: q /\
  forall T, t_st T = Ground -> exists r L0 L1 L2 p e,
    shows W cw T toks = mkTerm (fst p) (snd p) (t_log T ++ L0 ++ L1 ++ L2) Ground /\
    laid W (length pv) (r, 0) (pre ++ str "(search)'" ++ firstn (ed_cursor s') (data b)) L1 p /\
    laid W (length pv) p (skipn (ed_cursor s') (data b) ++ ch "`" :: q ++ t) L2 e /\
    (ed_hint s' = None -> L0 = [] /\ fst p = r + (ed_tcl s' - 1) /\
       ((N.of_nat (ed_tcl s) < 65536)%N -> r = t_row T - (ed_tcl s - 1))).
Proof.
  intros W cw E s u s' b prompt n pre pv t H Hs HW Hon Hsp D Hcw Hb Hn Hnl Hpre Hlen.
  assert (HW0 : 0 < W) by (destruct (e_size E) as [[|w]|]; cbn in HW; try discriminate; injection HW as <-; lia).
  destruct (display_shows W cw E s u s' _ _ pv t H HW Hsp Hon D) as [toks [tc [x [b' [cl [K1 [K2 [K3 [K4 [K5 [K6 [K7 [K8 [K9 K10]]]]]]]]]]]]]].
  rewrite Hb in K3. injection K3 as <-. rewrite Hs in K2. rewrite K2 in K6.
  destruct (search_prompt_styled cw _ _ _ _ _ _ Hcw K2 Hsp Hb Hn Hpre) as [En [q Hq]].
  assert (Epv : pv = pre ++ str "(search)'" ++ data b ++ ch "`" :: q).
  { pose proof (styled_stripped W cw HW0 _ _ (dr_prompt _ _ _ _ _ _ _ D)) as S1. pose proof (styled_stripped W cw HW0 _ _ Hq) as S2.
    apply remove_codes_iff in S1, S2. congruence. }
  exists toks, q. split; [exact K1|]. split; [exact K4|]. split; [exact Epv|].
  assert (Ht : Forall (narrow cw) t).
  { apply Forall_forall. intros c Hc. pose proof (dr_text _ _ _ _ _ _ _ D) as F. rewrite Forall_forall in F. destruct (F c Hc) as [->|K]; [contradiction|exact K]. }
  assert (Hx : Forall (narrow cw) x /\ length x = ed_cursor s').
  { rewrite K7. destruct (Nat.ltb_spec (ed_cursor s') (length t)) as [L|L].
    - split; [|rewrite firstn_length; lia]. rewrite <- (firstn_skipn (ed_cursor s') t) in Ht. apply Forall_app in Ht. apply Ht.
    - split; [|rewrite firstn_length; lia]. pose proof Hn as F. rewrite <- (firstn_skipn (ed_cursor s') (data b)) in F. apply Forall_app in F. apply F. }
  destruct Hx as [Hx Lx].
  assert (Etc : tc = length pre + 9 + ed_cursor s').
  { rewrite <- K6. assert (Sx : split_on c_nl x = [x]).
    { apply split_on_none. intro K. rewrite Forall_forall in Hx. exact (narrow_nl W cw HW0 (Hx _ K)). }
    rewrite Sx. cbn [map]. unfold calc_width. cbn [fold_left]. rewrite Nat.mod_0_l by lia. cbn [Nat.eqb negb].
    rewrite (dr_measure _ _ _ _ _ _ _ D x Hx). lia. }
  set (A := pre ++ str "(search)'" ++ firstn (ed_cursor s') (data b)).
  assert (HA : Forall (narrow cw) A).
  { unfold A. repeat (apply Forall_app; split); [eapply styled_narrow; exact Hpre|apply ascii_text; [exact Hcw|reflexivity]|].
    pose proof Hn as F. rewrite <- (firstn_skipn (ed_cursor s') (data b)) in F. apply Forall_app in F. apply F. }
  assert (EA : endn W (length pv) 0 A = tc).
  { rewrite (endn_flat W cw HW0) by exact HA. unfold A. rewrite !app_length, firstn_length, Etc. change (length (str "(search)'")) with 9. lia. }
  assert (Eall : pv ++ t = A ++ skipn (ed_cursor s') (data b) ++ ch "`" :: q ++ t).
  { rewrite Epv. unfold A. rewrite <- (firstn_skipn (ed_cursor s') (data b)) at 1. rewrite <- !app_assoc. reflexivity. }
  intros T HT. destruct (K10 T HT) as [r0 [L0 [Y1 Y2]]].
  assert (Hin : In c_nl (A ++ skipn (ed_cursor s') (data b) ++ ch "`" :: q ++ t) -> length pv < W).
  { rewrite <- Eall. intro K. apply in_app_or in K as [K|K]; [|contradiction].
    pose proof (styled_narrow cw _ _ (dr_prompt _ _ _ _ _ _ _ D)) as F. rewrite Forall_forall in F. destruct (narrow_nl W cw HW0 (F _ K)). }
  destruct (cells_split W r0 (length pv) A _ HW0 Hin) as [L1 [L2 [e [C1 [C2 C3]]]]].
  rewrite <- Eall in C1. rewrite EA in C2, C3.
  exists r0, L0, L1, L2, (r0 + tc / W, tc mod W), e. cbn [fst snd]. rewrite C1 in Y1. split; [exact Y1|]. split; [exact C2|]. split; [exact C3|].
  intro Hh. destruct (Y2 Hh) as [Z1 Z2]. split; [exact Z1|]. split; [rewrite K8, (K9 Hh); lia|exact Z2].
Qed.

(** The layout of a text is unique; for the Examples. *)
Lemma laid_unique : forall W ind p t L e, laid W ind p t L e -> forall L' e', laid W ind p t L' e' -> L = L' /\ e = e'.
Proof.
  induction 1 as [p|p c t L e Hc H IH|r k t L e H IH]; intros L' e' H'.
  - inversion H'; subst. auto.
  - inversion H' as [|? ? ? L1 ? ? H1|]; subst; [|congruence]. destruct (IH _ _ H1) as [-> ->]. auto.
  - inversion H'; subst; [congruence|]. apply IH. assumption.
Qed.
Lemma rows_bound : forall W ind t, 0 < W -> (In c_nl t -> ind < W) -> (N.of_nat (endn W ind 0 t / W) < 65536)%N ->
  forall L e, laid W ind (0, 0) t L e -> (N.of_nat (fst e) < 65536)%N.
Proof.
  intros W ind t HW Hi Hb L e H. pose proof (laid_cells W HW 0 ind t 0 Hi) as K. unfold fresh in K at 1.
  rewrite Nat.div_0_l, Nat.mod_0_l in K by lia. destruct (laid_unique _ _ _ _ _ _ H _ _ K) as [_ ->]. exact Hb.
Qed.
Ltac narrow_concrete := repeat (constructor; [first [left; reflexivity | right; split; [discriminate|split; [discriminate|reflexivity]]
  | split; [discriminate|split; [discriminate|reflexivity]]]|]); constructor.
Lemma ascii_measure : forall x, u_width Tests.ascii_uni x = length x.
Proof. reflexivity. Qed.
