(** Proofs about [FilenameCompleter]. *)
From Verif Require Import Base Utf8 BufferModel BufferSpec UtilModel UtilSpec CompleteModel Lemmas TextProofs
  Utf8Proofs UtilProofs CompleteSpec.

(** * When it panics *)
Lemma bsplit_app : forall a b, bsplit (a ++ b) (blen a) = Val (a, b).
Proof.
  intros a b. induction a as [|c a IH]; [destruct b; reflexivity|].
  cbn [app blen bsplit]. pose proof (clen_pos c) as P. destruct (clen c + blen a) eqn:E; [lia|].
  rewrite <- E. replace (clen c <=? clen c + blen a) with true by (symmetry; apply Nat.leb_le; lia).
  replace (clen c + blen a - clen c) with (blen a) by lia. rewrite IH. reflexivity.
Qed.
Lemma bsplit_Val : forall t n a b, bsplit t n = Val (a, b) -> t = a ++ b /\ n = blen a.
Proof.
  intros t. induction t as [|c t IH]; intros n a b H; destruct n; cbn [bsplit] in H; try discriminate.
  - injection H as <- <-. split; reflexivity.
  - injection H as <- <-. split; reflexivity.
  - destruct (clen c <=? S n) eqn:E; [|discriminate]. apply Nat.leb_le in E.
    destruct (bsplit t (S n - clen c)) as [[x y]|] eqn:B; [|discriminate]. injection H as <- <-.
    destruct (IH _ _ _ B) as [-> H]. split; [reflexivity|]. cbn [blen]. lia.
Qed.
Lemma app_last_eq : forall {A} (a b : list A) x y, a ++ [x] = b ++ [y] -> a = b /\ x = y.
Proof. intros. apply app_inj_tail. assumption. Qed.
Lemma bsplit_last : forall a c,
  bsplit (a ++ [c]) (blen (a ++ [c]) - 1) = if clen c =? 1 then Val (a, [c]) else Pan PBoundary.
Proof.
  intros a c. rewrite blen_app. cbn [blen]. rewrite Nat.add_0_r. pose proof (clen_pos c) as P.
  destruct (clen c =? 1) eqn:E.
  - apply Nat.eqb_eq in E. rewrite E. replace (blen a + 1 - 1) with (blen a) by lia. apply bsplit_app.
  - apply Nat.eqb_neq in E. revert E P. induction a as [|x a IH]; intros E P.
    + cbn [app blen]. cbn [bsplit]. destruct (0 + clen c - 1) eqn:D; [lia|].
      replace (clen c <=? S n) with false by (symmetry; apply Nat.leb_gt; lia). reflexivity.
    + cbn [app blen bsplit]. pose proof (clen_pos x). destruct (clen x + blen a + clen c - 1) eqn:D; [lia|].
      rewrite <- D. replace (clen x <=? clen x + blen a + clen c - 1) with true by (symmetry; apply Nat.leb_le; lia).
      replace (clen x + blen a + clen c - 1 - clen x) with (blen a + clen c - 1) by lia.
      rewrite (IH E P). reflexivity.
Qed.

Lemma quote_iff : forall c, (N.eqb c 34 || N.eqb c 39) = true <-> quote c.
Proof. intro c. unfold quote. rewrite orb_true_iff, !N.eqb_eq. tauto. Qed.
Lemma unquote_iff : forall start,
  match unquote start with
  | Val (t, o) => unquoted start t o
  | Pan _ => exists q a c, start = q :: a ++ [c] /\ quote q /\ 1 < clen c
  end.
Proof.
  intros [|c inner]; [apply (uq_plain []); intros; discriminate|]. cbn [unquote].
  destruct (N.eqb c 34 || N.eqb c 39) eqn:Q.
  - apply quote_iff in Q. destruct inner as [|x inner]; [apply uq_lone; exact Q|].
    destruct (exists_last (l:=x :: inner) ltac:(discriminate)) as [a [y E]]. rewrite E.
    rewrite bsplit_last. pose proof (clen_pos y). destruct (clen y =? 1) eqn:L; cbn [rbind].
    + apply uq_quoted. exact Q.
    + apply Nat.eqb_neq in L. exists c, a, y. repeat split; [exact Q|lia].
  - apply uq_plain. intros q r H. injection H as <- <-. intro C. apply quote_iff in C. congruence.
Qed.
Lemma unquoted_fun : forall s t o t' o', unquoted s t o -> unquoted s t' o' -> t = t' /\ o = o'.
Proof.
  intros s t o t' o' H H'. destruct H as [q Q|q a c Q|s N]; inversion H'; subst; auto;
    try match goal with
    | E : [] = ?x ++ [_] |- _ => destruct x; discriminate
    | E : ?x ++ [_] = [] |- _ => destruct x; discriminate
    | E : _ ++ [_] = _ ++ [_] |- _ => apply app_last_eq in E as [? _]; subst; auto
    | N : forall q r, _ = q :: r -> ~ quote q |- _ => exfalso; eapply N; [reflexivity|assumption]
    end.
Qed.
Lemma unquote_pan : forall q a c, quote q -> 1 < clen c -> exists p, unquote (q :: a ++ [c]) = Pan p.
Proof.
  intros q a c Q L. cbn [unquote]. apply quote_iff in Q. rewrite Q.
  destruct (a ++ [c]) eqn:E; [destruct a; discriminate|]. rewrite <- E, bsplit_last.
  replace (clen c =? 1) with false by (symmetry; apply Nat.eqb_neq; lia). eexists. reflexivity.
Qed.

(** * Components *)
Lemma comp_false_cur : forall t, comp_of false t <> Some CCur.
Proof.
  intros t. unfold comp_of. destruct t; [discriminate|]. destruct (text_eqb _ _); [discriminate|].
  destruct (text_eqb _ _); discriminate.
Qed.
Lemma comp_false_none : forall t, comp_of false t = None <-> t = [] \/ t = [c_dot].
Proof.
  intros t. unfold comp_of. destruct t as [|x t]; [tauto|].
  destruct (text_eqb (x :: t) [c_dot]) eqn:E.
  - apply text_eqb_eq in E. tauto.
  - destruct (text_eqb (x :: t) [c_dot; c_dot]); (split; [discriminate|]); intros [C|C]; try discriminate;
      rewrite C in E; discriminate.
Qed.
Lemma comp_true_cur : forall t, comp_of true t = Some CCur <-> t = [c_dot].
Proof.
  intros t. unfold comp_of. destruct t as [|x t]; [split; discriminate|].
  destruct (text_eqb (x :: t) [c_dot]) eqn:E.
  - apply text_eqb_eq in E. tauto.
  - destruct (text_eqb (x :: t) [c_dot; c_dot]); (split; [discriminate|]); intro C; rewrite C in E; discriminate.
Qed.
Lemma flat_comp_last : forall ts, last_opt (flat_map (fun t => opt_list (comp_of false t)) ts) <> Some CCur.
Proof.
  intros ts H. apply last_opt_Some in H as [l H].
  assert (I : In CCur (flat_map (fun t => opt_list (comp_of false t)) ts)) by (rewrite H; apply in_or_app; right; left; reflexivity).
  apply in_flat_map in I as [t [_ I]]. destruct (comp_of false t) eqn:E; [|destruct I].
  destruct I as [->|[]]. exact (comp_false_cur t E).
Qed.
Lemma flat_comp_nil : forall ts, flat_map (fun t => opt_list (comp_of false t)) ts = [] <->
  Forall (fun x => x = [] \/ x = [c_dot]) ts.
Proof.
  induction ts as [|t ts IH]; [split; intro; [constructor|reflexivity]|]. cbn [flat_map]. split; intro H.
  - apply app_eq_nil in H as [H1 H2]. constructor; [|apply IH; exact H2]. apply comp_false_none.
    destruct (comp_of false t); [discriminate|reflexivity].
  - inversion H as [|? ? H1 H2]; subst. apply comp_false_none in H1. rewrite H1. cbn. apply IH. exact H2.
Qed.
Lemma last_opt_cons_app : forall {A} (a b : list A), b <> [] -> last_opt (a ++ b) = last_opt b.
Proof.
  intros A a b H. destruct (exists_last H) as [b' [x ->]]. rewrite app_assoc, !last_opt_app. reflexivity.
Qed.
Lemma components_cur : forall p, last_opt (components p) = Some CCur <-> only_cur p.
Proof.
  intro p. unfold components, only_cur. pose proof (glue_split c_slash p) as G. pose proof (split_on_nosep c_slash p) as Ns.
  destruct (split_on c_slash p) as [|t ts] eqn:Sp; [exfalso; exact (split_on_nonempty c_slash p Sp)|].
  split.
  - intro H.
    assert (F : flat_map (fun t => opt_list (comp_of false t)) ts = []).
    { destruct (flat_map (fun t => opt_list (comp_of false t)) ts) eqn:E; [reflexivity|].
      exfalso. apply (flat_comp_last ts). rewrite E.
      rewrite (last_opt_cons_app _ (c :: l)) in H by discriminate. exact H. }
    rewrite F, app_nil_r in H. destruct (is_absolute p); [discriminate|].
    destruct (comp_of true t) as [x|] eqn:C; [|discriminate]. cbn in H. injection H as ->.
    apply comp_true_cur in C. subst t. exists ts. split; [symmetry; exact G|]. apply flat_comp_nil. exact F.
  - intros [l [E F]].
    assert (Sp' : split_on c_slash p = [c_dot] :: l).
    { rewrite E. apply split_glue; [discriminate|]. constructor; [intros [C|[]]; discriminate|].
      eapply Forall_impl; [|exact F]. cbn. intros a [-> | ->]; [intros []|intros [C|[]]; discriminate]. }
    rewrite Sp in Sp'. injection Sp' as -> ->.
    assert (A : is_absolute p = false).
    { unfold is_absolute. rewrite E. destruct l; reflexivity. }
    rewrite A. apply flat_comp_nil in F. rewrite F. reflexivity.
Qed.

Lemma ends_slash_iff : forall t, ends_with_slash t = true <-> ends_slash t.
Proof.
  intro t. unfold ends_with_slash, ends_slash. split.
  - destruct (last_opt t) eqn:E; [|discriminate]. intro H. apply N.eqb_eq in H. subst. apply last_opt_Some in E. exact E.
  - intros [a ->]. rewrite last_opt_app. apply N.eqb_refl.
Qed.

Ltac nopan H :=
  cbn [rbind] in H; cbv zeta in H;
  match type of H with match ?rd ?x with _ => _ end = _ => destruct (rd x); [|discriminate] end;
  match type of H with (if ?b then _ else _) = _ => destruct b; discriminate end.
Lemma filename_panics : forall rd lower wd cs start,
  (exists p, filename_completions rd lower wd cs start = Pan p) <->
  (exists q a c, start = q :: a ++ [c] /\ quote q /\ 1 < clen c) \/
  (exists t o, unquoted start t o /\ t <> [] /\ ~ ends_slash o /\ only_cur (in_dir wd o)).
Proof.
  intros rd lower wd cs start. unfold filename_completions.
  pose proof (unquote_iff start) as U. destruct (unquote start) as [[t o]|p] eqn:EU; cbn [rbind].
  2: { split; [left; exact U|intros _; eexists; reflexivity]. }
  fold (in_dir wd o). set (full := in_dir wd o) in *.
  assert (Fst : ~ exists q a c, start = q :: a ++ [c] /\ quote q /\ 1 < clen c).
  { intros [q [a [c [-> [Q L]]]]]. destruct (unquote_pan q a c Q L) as [p P]. rewrite P in EU. discriminate. }
  assert (Snd : (exists t o, unquoted start t o /\ t <> [] /\ ~ ends_slash o /\ only_cur (in_dir wd o)) <->
                t <> [] /\ ~ ends_slash o /\ only_cur full).
  { split.
    - intros [t' [o' [U' H]]]. destruct (unquoted_fun _ _ _ _ _ U U') as [<- <-]. exact H.
    - intro H. exists t, o. split; [exact U|exact H]. }
  rewrite Snd. rewrite <- components_cur. unfold parent, file_name, ends_with_dotdot.
  assert (Cond : nonempty t && negb (ends_with_slash o) = true <-> t <> [] /\ ~ ends_slash o).
  { rewrite andb_true_iff, nonempty_true, negb_true_iff, <- ends_slash_iff. destruct (ends_with_slash o); intuition congruence. }
  split.
  - intros [p H]. right.
    destruct (last_opt (components full)) as [[| | |n]|] eqn:L.
    + exfalso. nopan H.
    + destruct (nonempty t && negb (ends_with_slash o)) eqn:B.
      * destruct Cond as [Cond _]. specialize (Cond eq_refl). tauto.
      * exfalso. cbn [andb] in H. nopan H.
    + exfalso. rewrite andb_false_r in H. nopan H.
    + exfalso. destruct (nonempty t && negb (ends_with_slash o) && negb false); nopan H.
    + exfalso. nopan H.
  - intros [H|[H1 [H2 H3]]]; [contradiction|]. rewrite H3.
    destruct Cond as [_ Cond]. rewrite (Cond (conj H1 H2)). cbn [negb andb rbind]. eexists. reflexivity.
Qed.

(** * The candidates *)
Lemma replace_escape_ : forall t f, length t <= f -> replace_ f [c_sp] [c_bs; c_sp] t = escape t.
Proof.
  induction t as [|c t IH]; intros f Hf; destruct f as [|f]; cbn [length] in Hf; try lia; try reflexivity.
  cbn [replace_ prefixb escape flat_map]. rewrite andb_true_r. cbn [length skipn].
  unfold escape in IH. rewrite IH by lia. rewrite (N.eqb_sym c c_sp). destruct (N.eqb c_sp c); reflexivity.
Qed.
Lemma replace_escape : forall t, replace [c_sp] [c_bs; c_sp] t = escape t.
Proof. intro t. apply replace_escape_. lia. Qed.
Lemma unescape_ : forall t f, ~ In c_bs t -> length (escape t) <= f -> replace_ f [c_bs; c_sp] [c_sp] (escape t) = t.
Proof.
  induction t as [|c t IH]; intros f Hn Hf; [destruct f; reflexivity|].
  assert (Hn' : ~ In c_bs t) by (intro C; apply Hn; right; exact C).
  change (escape (c :: t)) with ((if N.eqb c c_sp then [c_bs; c_sp] else [c]) ++ escape t) in *.
  destruct (N.eqb c c_sp) eqn:E.
  - apply N.eqb_eq in E. subst c. cbn [app length] in *. destruct f as [|f]; [lia|]. cbn [replace_].
    replace (prefixb [c_bs; c_sp] (c_bs :: c_sp :: escape t)) with true by (cbn; reflexivity).
    cbn [length skipn app]. rewrite IH; [reflexivity|exact Hn'|lia].
  - cbn [app length] in *. destruct f as [|f]; [lia|]. cbn [replace_ prefixb].
    destruct (N.eqb c_bs c) eqn:B; [apply N.eqb_eq in B; exfalso; apply Hn; left; auto|]. cbn [andb].
    rewrite IH; [reflexivity|exact Hn'|lia].
Qed.
Lemma unescape : forall t, ~ In c_bs t -> replace [c_bs; c_sp] [c_sp] (escape t) = t.
Proof. intros t H. apply unescape_; [exact H|lia]. Qed.
Lemma escape_hd : forall t c r, escape t = c :: r -> c = c_bs \/ (exists r', t = c :: r').
Proof.
  intros [|x t] c r H; [discriminate|]. cbn in H. destruct (N.eqb x c_sp); injection H as <- _; eauto.
Qed.
Lemma escape_app : forall a b, escape (a ++ b) = escape a ++ escape b.
Proof. intros. apply flat_map_app. Qed.
Lemma escape_nil : forall t, escape t = [] -> t = [].
Proof. intros [|c t] H; [reflexivity|]. cbn in H. destruct (N.eqb c c_sp); discriminate. Qed.
Lemma escape_slash : forall t, ends_slash (escape t) <-> ends_slash t.
Proof.
  intro t. split.
  - intros [a H]. destruct t as [|x t] using rev_ind; [destruct a; discriminate|].
    rewrite escape_app in H. cbn in H. destruct (N.eqb x c_sp) eqn:E.
    + rewrite app_nil_r in H. change [c_bs; c_sp] with ([c_bs] ++ [c_sp]) in H. rewrite app_assoc in H.
      apply app_last_eq in H as [_ H]. discriminate.
    + rewrite app_nil_r in H. apply app_last_eq in H as [_ ->]. exists t. reflexivity.
  - intros [a ->]. rewrite escape_app. exists (escape a). reflexivity.
Qed.
Lemma unquote_escape : forall o, ~ In c_bs o -> (forall q r, o = q :: r -> ~ quote q) ->
  unquote (escape o) = Val (escape o, o).
Proof.
  intros o H1 H2. pose proof (unquote_iff (escape o)) as U.
  assert (P : forall q r, escape o = q :: r -> ~ quote q).
  { intros q r E. destruct (escape_hd _ _ _ E) as [->|[r' E']]; [intros [C|C]; discriminate|exact (H2 _ _ E')]. }
  destruct (unquote (escape o)) as [[t p]|p].
  - destruct (unquoted_fun _ _ _ _ _ U (uq_plain _ P)) as [-> ->].
    change (c_bs :: [c_sp]) with [c_bs; c_sp]. rewrite unescape by exact H1. reflexivity.
  - destruct U as [q [a [c [E [Q _]]]]]. exfalso. exact (P _ _ E Q).
Qed.

Lemma split_on_sep : forall sep x y, split_on sep (x ++ sep :: y) = split_on sep x ++ split_on sep y.
Proof.
  intros sep x y. induction x as [|c x IH]; cbn [app split_on]; [rewrite N.eqb_refl; reflexivity|].
  destruct (N.eqb c sep); rewrite IH; [reflexivity|].
  pose proof (split_on_nonempty sep x). destruct (split_on sep x); [congruence|reflexivity].
Qed.
Lemma comp_name : forall b n, a_name n -> comp_of b n = Some (CNormal n).
Proof.
  intros b n [H1 [H2 [H3 H4]]]. unfold comp_of. destruct n as [|x n]; [congruence|].
  destruct (text_eqb (x :: n) [c_dot]) eqn:E1; [apply text_eqb_eq in E1; congruence|].
  destruct (text_eqb (x :: n) [c_dot; c_dot]) eqn:E2; [apply text_eqb_eq in E2; congruence|]. reflexivity.
Qed.
Lemma name_relative : forall n, a_name n -> is_absolute n = false.
Proof.
  intros [|x n] [H1 [H2 _]]; [congruence|]. unfold is_absolute. cbn [prefixb]. destruct (N.eqb c_slash x) eqn:E; [|reflexivity].
  apply N.eqb_eq in E. exfalso. apply H2. left. auto.
Qed.
Lemma name_last : forall p n, slashed p -> a_name n -> last_opt (components (p ++ n)) = Some (CNormal n).
Proof.
  intros p n [->|[q ->]] Hn.
  - cbn [app]. unfold components. rewrite (split_on_none c_slash n) by apply Hn.
    rewrite (name_relative n Hn), (comp_name true n Hn). reflexivity.
  - unfold components. rewrite <- app_assoc. cbn [app]. rewrite split_on_sep, (split_on_none c_slash n) by apply Hn.
    pose proof (split_on_nonempty c_slash q). destruct (split_on c_slash q) as [|t ts]; [congruence|]. cbn [app].
    rewrite flat_map_app. cbn [flat_map]. rewrite (comp_name false n Hn). cbn [opt_list app]. rewrite app_assoc.
    apply last_opt_app.
Qed.
Lemma trim_back_stop : forall f a r, a <> c_slash ->
  (forall r', r = c_slash :: r' -> a <> c_dot) -> trim_back f (a :: r) = a :: r.
Proof.
  intros [|f] a r H1 H2; [reflexivity|]. cbn [trim_back]. destruct r as [|b r]; [reflexivity|].
  rewrite (proj2 (N.eqb_neq a c_slash) H1). destruct (N.eqb b c_slash) eqn:E; [|rewrite andb_false_r; reflexivity].
  apply N.eqb_eq in E. subst b. rewrite (proj2 (N.eqb_neq a c_dot) (H2 r eq_refl)). reflexivity.
Qed.
(** A path whose last piece is neither empty nor "." is left alone. *)
Lemma trim_piece : forall p x, slashed p -> x <> [] -> x <> [c_dot] -> ~ In c_slash x -> trim (p ++ x) = p ++ x.
Proof.
  intros p x Hp H1 H2 H3. unfold trim. rewrite rev_app_distr.
  destruct (exists_last H1) as [y [a ->]]. rewrite rev_app_distr. cbn [app rev].
  rewrite trim_back_stop.
  - change (a :: rev y ++ rev p) with ((a :: rev y) ++ rev p). rewrite rev_app_distr, rev_involutive.
    cbn [rev]. rewrite rev_involutive. reflexivity.
  - intros ->. apply H3. apply in_or_app. right. left. reflexivity.
  - intros r' E ->. destruct y as [|b y] using rev_ind; [apply H2; reflexivity|]. clear IHy.
    rewrite rev_app_distr in E. cbn in E. injection E as -> _. apply H3. rewrite !in_app_iff. left. right. left. reflexivity.
Qed.
Lemma tidy_trim : forall q, tidy q -> trim q = q.
Proof. intros q [a [x [-> [Ha [H1 [H2 H3]]]]]]. apply trim_piece; assumption. Qed.
Lemma tidy_rev : forall q, tidy q -> exists a r, rev q = a :: r /\ a <> c_slash.
Proof.
  intros q [p [x [-> [_ [H1 [_ H3]]]]]]. destruct (exists_last H1) as [y [a ->]].
  exists a, (rev y ++ rev p). rewrite !rev_app_distr. cbn. split; [reflexivity|]. intros ->. apply H3.
  apply in_or_app. right. left. reflexivity.
Qed.
Lemma trim_slash : forall q, tidy q -> trim (q ++ [c_slash]) = q.
Proof.
  intros q Hq. pose proof (tidy_trim q Hq) as T. destruct (tidy_rev q Hq) as [a [r [E Ha]]]. unfold trim in *.
  rewrite rev_app_distr, app_length, Nat.add_comm. cbn [rev app length Nat.add].
  rewrite E in *. cbn [trim_back]. rewrite N.eqb_refl. exact T.
Qed.
Lemma drop_name : forall n r, ~ In c_slash n -> drop_piece (rev n ++ r) = drop_piece r.
Proof.
  intros n r H. assert (H' : ~ In c_slash (rev n)) by (rewrite <- in_rev; exact H). clear H. induction (rev n) as [|a l IH]; [reflexivity|].
  cbn [app drop_piece]. destruct (N.eqb a c_slash) eqn:E; [apply N.eqb_eq in E; exfalso; apply H'; left; exact E|].
  apply IH. intro C. apply H'. right. exact C.
Qed.
Lemma drop_slashed : forall p, slashed p -> drop_piece (rev p) = rev p.
Proof. intros p [->|[q ->]]; [reflexivity|]. rewrite rev_app_distr. cbn. reflexivity. Qed.
Lemma parent_name : forall p n, slashed p -> a_name n -> parent (p ++ n) = Some (trim p).
Proof.
  intros p n Hp Hn. unfold parent. rewrite (name_last p n Hp Hn).
  rewrite (trim_piece p n Hp); try apply Hn. rewrite rev_app_distr, drop_name by apply Hn.
  rewrite drop_slashed by exact Hp. rewrite rev_involutive. reflexivity.
Qed.
Lemma dir_trim : forall d q, dir_text d q -> trim d = q.
Proof. intros d q [| |q' H]; [reflexivity|reflexivity|apply trim_slash; exact H]. Qed.
Lemma dir_slashed : forall d q, dir_text d q -> slashed d.
Proof. intros d q [| |q' H]; [left; reflexivity|right; exists []; reflexivity|right; eexists; reflexivity]. Qed.
Lemma tidy_nonempty : forall q, tidy q -> q <> [].
Proof. intros q H ->. destruct (tidy_rev [] H) as [a [r [E _]]]. discriminate. Qed.
Lemma abs_app : forall a b, a <> [] -> is_absolute (a ++ b) = is_absolute a.
Proof. intros [|c a] b H; [congruence|]. reflexivity. Qed.
Lemma tidy_join : forall w q, tidy q -> tidy (w ++ c_slash :: q).
Proof.
  intros w q [a [x [-> [Ha H]]]]. exists (w ++ c_slash :: a), x. split; [rewrite <- app_assoc; reflexivity|].
  split; [|exact H]. right. destruct Ha as [->|[b ->]]; [exists w; reflexivity|].
  exists (w ++ c_slash :: b). rewrite <- app_assoc. reflexivity.
Qed.
Lemma push_tidy : forall w o, tidy w -> is_absolute o = false -> path_push w o = w ++ c_slash :: o.
Proof.
  intros w o H A. unfold path_push. rewrite A. destruct (tidy_rev w H) as [a [r [E Ha]]]. rewrite E.
  rewrite (proj2 (N.eqb_neq a c_slash) Ha). reflexivity.
Qed.

(** Where the directory part and the name end up. *)
Lemma full_name : forall wd d q n, read_from wd d q -> a_name n -> exists p,
  slashed p /\ in_dir wd (d ++ n) = p ++ n /\ trim p = q.
Proof.
  intros wd d q n H Hn. destruct H as [d q H|w d q H A|w H|d q H D A|w d q Hw H D A]; cbn [in_dir].
  - exists d. split; [exact (dir_slashed _ _ H)|]. split; [reflexivity|exact (dir_trim _ _ H)].
  - exists d. split; [exact (dir_slashed _ _ H)|]. split; [|exact (dir_trim _ _ H)].
    unfold path_push. rewrite abs_app; [rewrite A; reflexivity|intros ->; discriminate].
  - cbn [app]. destruct H as [->|H].
    + exists [c_slash]. split; [right; exists []; reflexivity|]. split; [|reflexivity].
      unfold path_push. rewrite (name_relative n Hn). reflexivity.
    + exists (w ++ [c_slash]). split; [right; eexists; reflexivity|]. split; [|apply trim_slash; exact H].
      rewrite (push_tidy w n H (name_relative n Hn)), <- app_assoc. reflexivity.
  - exists (c_slash :: d).
    assert (S : slashed (c_slash :: d)).
    { right. destruct (dir_slashed _ _ H) as [->|[a ->]]; [exists []; reflexivity|exists (c_slash :: a); reflexivity]. }
    split; [exact S|]. split.
    + unfold path_push. rewrite abs_app by exact D. rewrite A. reflexivity.
    + destruct H as [| |q H]; [congruence|discriminate|].
      change (c_slash :: q ++ [c_slash]) with ((c_slash :: q) ++ [c_slash]). apply trim_slash.
      exact (tidy_join [] q H).
  - exists (w ++ c_slash :: d).
    assert (S : slashed (w ++ c_slash :: d)).
    { right. destruct (dir_slashed _ _ H) as [->|[a ->]]; [exists w; reflexivity|].
      exists (w ++ c_slash :: a). rewrite <- app_assoc. reflexivity. }
    split; [exact S|]. split.
    + rewrite (push_tidy w (d ++ n) Hw); [rewrite <- app_assoc; reflexivity|]. rewrite abs_app; assumption.
    + destruct H as [| |q H]; [congruence|discriminate|].
      replace (w ++ c_slash :: q ++ [c_slash]) with ((w ++ c_slash :: q) ++ [c_slash]) by (rewrite <- app_assoc; reflexivity).
      apply trim_slash, tidy_join. exact H.
Qed.

Lemma push_dir : forall d q x, dir_text d q -> is_absolute x = false -> path_push q x = d ++ x.
Proof.
  intros d q x [| |q' H] A.
  - unfold path_push. rewrite A. reflexivity.
  - unfold path_push. rewrite A. reflexivity.
  - rewrite (push_tidy q' x H A), <- app_assoc. reflexivity.
Qed.
Lemma rel_app : forall x y, x <> [] -> is_absolute x = false -> is_absolute (x ++ y) = false.
Proof. intros x y H A. rewrite abs_app; assumption. Qed.
Lemma entry_relative : forall e, entry_ok e -> fst e <> [] /\ is_absolute (fst e) = false.
Proof.
  intros [[|x n] b] [H1 H2]; cbn [fst] in *; [congruence|]. split; [discriminate|].
  unfold is_absolute. cbn [prefixb]. destruct (N.eqb c_slash x) eqn:E; [|reflexivity].
  apply N.eqb_eq in E. exfalso. apply H2. left. auto.
Qed.

(** The text made for one entry, from the path [q] of the directory. *)
Lemma push_abs : forall a b, is_absolute b = true -> path_push a b = b.
Proof. intros a b H. unfold path_push. rewrite H. reflexivity. Qed.

Lemma flat_one : forall {A B} (f : A -> option B) (g : A -> B) l,
  (forall x, In x l -> f x = Some (g x)) ->
  forallb (fun e => match f e with Some _ => true | None => false end) l = true /\
  flat_map (fun e => opt_list (f e)) l = map g l.
Proof.
  intros A B f g l H. split.
  - apply forallb_forall. intros x Hx. rewrite (H x Hx). reflexivity.
  - induction l as [|x l IH]; [reflexivity|]. cbn [flat_map map]. rewrite (H x (or_introl eq_refl)). cbn [opt_list app].
    f_equal. apply IH. intros y Hy. apply H. right. exact Hy.
Qed.

Lemma dirname_abs : forall d q, dir_text d q -> is_absolute d = true -> is_absolute q = true /\ q <> [].
Proof.
  intros d q [| |q' H] A; [discriminate|split; [reflexivity|discriminate]|].
  pose proof (tidy_nonempty q' H) as N. rewrite abs_app in A by exact N. auto.
Qed.
Lemma read_dir_text : forall wd d q, read_from wd d q -> exists q', dir_text d q'.
Proof. intros wd d q [d' q' H|w d' q' H A|w H|d' q' H D A|w d' q' Hw H D A]; eauto. exists []. constructor. Qed.

Lemma filename_names : forall rd lower wd cs d q n es,
  read_from wd d q -> a_name n -> ~ In c_bs (d ++ n) -> (forall x r, d ++ n = x :: r -> ~ quote x) ->
  rd q = Some es -> Forall entry_ok es ->
  let fold_ t := if cs : bool then t else lower t in
  exists sel, selects (fun e => is_prefix (fold_ n) (fold_ (fst e))) es sel /\
    filename_completions rd lower wd cs (escape (d ++ n)) = Val (map (candidate d) sel).
Proof.
  intros rd lower wd cs d q n es Hr Hn Hb Hq Hrd He fold_.
  set (keep := fun e : text * bool => negb (nonempty (fold_ n)) || prefixb (fold_ n) (fold_ (fst e))).
  exists (filter keep es).
  assert (Sel : selects (fun e => is_prefix (fold_ n) (fold_ (fst e))) es (filter keep es)).
  { apply (selects_filter_iff (fun e => is_prefix (fold_ n) (fold_ (fst e))) keep); [|reflexivity].
    intro e. unfold keep. rewrite orb_true_iff, negb_true_iff, nonempty_false, prefixb_iff. split; [|tauto].
    intros [->|H]; [exists (fold_ (fst e)); reflexivity|exact H]. }
  split; [exact Sel|].
  unfold filename_completions. rewrite (unquote_escape _ Hb Hq). cbn [rbind]. fold (in_dir wd (d ++ n)).
  destruct (full_name wd d q n Hr Hn) as [p [Sp [Ef Tp]]]. rewrite Ef.
  rewrite (parent_name p n Sp Hn), Tp. unfold file_name, ends_with_dotdot. rewrite (name_last p n Sp Hn).
  assert (Ne : nonempty (escape (d ++ n)) = true).
  { apply nonempty_true. intro C. apply escape_nil, app_eq_nil in C as [_ C]. exact (proj1 Hn C). }
  assert (Ns : ends_with_slash (d ++ n) = false).
  { destruct (ends_with_slash (d ++ n)) eqn:Z; [|reflexivity]. apply ends_slash_iff in Z as [a Z].
    destruct (exists_last (proj1 Hn)) as [y [x ->]]. rewrite app_assoc in Z. apply app_last_eq in Z as [_ ->].
    exfalso. apply (proj1 (proj2 Hn)). apply in_or_app. right. left. reflexivity. }
  rewrite Ne, Ns. cbn [negb andb rbind]. rewrite Hrd.
  destruct (read_dir_text _ _ _ Hr) as [q' Hd].
  match goal with |- context [flat_map (fun e => opt_list (@?f e)) ?l] =>
    destruct (flat_one f (candidate d) l) as [F1 F2]; [|cbv beta in F1, F2; rewrite F1, F2; reflexivity] end.
  intros [name dir] Hin. cbn [fst]. unfold candidate. cbn [fst snd].
  assert (Ok : entry_ok (name, dir)).
  { apply filter_In in Hin as [Hin _]. rewrite Forall_forall in He. exact (He _ Hin). }
  destruct (entry_relative _ Ok) as [N1 N2]. cbn [fst] in N1, N2.
  assert (Par : parent (d ++ n) = Some q').
  { rewrite (parent_name d n (dir_slashed _ _ Hd) Hn), (dir_trim _ _ Hd). reflexivity. }
  unfold path_pop. rewrite Par.
  destruct (is_absolute (d ++ n)) eqn:A; cbn [negb]; rewrite replace_escape; f_equal; f_equal.
  - destruct d as [|x d']; [cbn [app] in A; rewrite (name_relative n Hn) in A; discriminate|]. rewrite abs_app in A by discriminate.
    set (d := x :: d') in *. rewrite (push_dir d q' name Hd N2).
    rewrite push_abs; [rewrite <- app_assoc; reflexivity|].
    rewrite <- app_assoc. rewrite abs_app by discriminate. exact A.
  - change (path_push [] name) with (if is_absolute name then name else name). rewrite N2.
    rewrite (push_dir d q' _ Hd); [reflexivity|]. apply rel_app; assumption.
Qed.

Lemma filename_all : forall rd lower wd cs d es,
  slashed d -> ~ In c_bs d -> (forall x r, d = x :: r -> ~ quote x) ->
  rd (in_dir wd d) = Some es -> Forall entry_ok es ->
  filename_completions rd lower wd cs (escape d) = Val (map (candidate d) es).
Proof.
  intros rd lower wd cs d es Sd Hb Hq Hrd He. unfold filename_completions.
  rewrite (unquote_escape _ Hb Hq). cbn [rbind]. fold (in_dir wd d).
  assert (Cond : nonempty (escape d) && negb (ends_with_slash d) = false).
  { destruct Sd as [->|Sd]; [reflexivity|]. apply ends_slash_iff in Sd. rewrite Sd. apply andb_false_r. }
  assert (Comp : negb (nonempty (escape d)) || ends_with_slash (escape d) = true).
  { destruct Sd as [->|Sd]; [reflexivity|]. apply escape_slash, ends_slash_iff in Sd. rewrite Sd. apply orb_true_r. }
  rewrite Cond, Comp. cbn [andb orb].
  match goal with |- rbind (match ?m with Some _ => ?x | None => ?x end) _ = _ =>
    replace (match m with Some _ => x | None => x end) with x by (destruct m; reflexivity) end.
  cbn [rbind]. rewrite Hrd. cbn [nonempty negb orb].
  replace (filter (fun _ => true) es) with es by (clear; induction es as [|e es IH]; cbn; congruence).
  cbv zeta. match goal with |- context [flat_map (fun e => opt_list (@?f e)) ?l] =>
    destruct (flat_one f (candidate d) l) as [F1 F2]; [|cbv beta in F1, F2; rewrite F1, F2; reflexivity] end.
  intros [name dir] Hin. unfold candidate. cbn [fst snd]. rewrite Forall_forall in He. destruct (entry_relative _ (He _ Hin)) as [N1 N2].
  cbn [fst] in N1, N2.
  assert (P : forall x, is_absolute x = false -> path_push d x = d ++ x).
  { intros x A. unfold path_push. rewrite A. destruct Sd as [->|[a ->]]; [reflexivity|].
    rewrite rev_app_distr. cbn [rev app]. rewrite N.eqb_refl. reflexivity. }
  destruct (is_absolute d) eqn:A; cbn [negb]; rewrite replace_escape; f_equal; f_equal.
  - rewrite (P name N2), push_abs; [rewrite <- app_assoc; reflexivity|].
    rewrite <- app_assoc. rewrite abs_app; [exact A|]. intros ->. discriminate.
  - change (path_push [] name) with (if is_absolute name then name else name). rewrite N2.
    rewrite P; [reflexivity|]. apply rel_app; assumption.
Qed.
