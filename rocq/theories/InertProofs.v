(** Keys that have no meaning (C90). *)
From Verif Require Import Base BufferModel UtilModel HistoryModel EditorState EditorModel KeymapModel ViModel
  MonadLemmas EditorSpec InertSpec.
Local Open Scope monad_scope.

Lemma not_char : forall c l y, ~ In c (map ch l) -> In y l -> is_char c y = false.
Proof.
  intros c l y H Hy. unfold is_char. apply N.eqb_neq. intro E. apply H. rewrite E. apply in_map. exact Hy.
Qed.

(** A key that [handle_key] leaves to the key map *)
Definition plain_key (k : key) : Prop :=
  match k with
  | KCtrl c => forall y, In y ["c"; "d"; "f"; "h"; "r"; "s"]%string -> is_char c y = false
  | KNull | KEsc | KOther _ | KAlt _ => True
  | _ => False
  end.
Lemma idle_key : forall {K} (core : env -> key -> MK K unit) E k x s t c x',
  plain_key k -> line_is s t c -> core E k (x, s) = ORet tt (x', s) ->
  handle_key core E k (x, s) =
    if e_wok E then ORet false (x', skip_completions_hint s) else OErr EOther (x', skip_completions_hint s).
Proof.
  intros K core E k x s t c x' Hk [b [Hb _]] Hc. unfold handle_key. unfold bind at 1. cbn [gete].
  unfold bind at 1. rewrite Hb. cbv beta zeta.
  destruct k as [c0|c0|c0| | | | | | | | | | |]; try contradiction; cbv beta iota.
  1, 3, 4, 5: unfold bind at 1; unfold bind at 1; rewrite Hc; cbn; destruct (e_wok E); reflexivity.
  cbn [plain_key] in Hk. rewrite (Hk "h"%string) by (cbn; tauto). cbv beta iota.
  rewrite (Hk "c"%string), (Hk "d"%string), (Hk "f"%string), (Hk "r"%string), (Hk "s"%string) by (cbn; tauto). cbn [andb].
  unfold bind at 1. unfold bind at 1. rewrite Hc. cbn. destruct (e_wok E); reflexivity.
Qed.

Lemma emacs_idle_core : forall E k x s, emacs_idle k -> emacs_core E k (x, s) = ORet tt (mkEmacs None, s).
Proof.
  intros E k x s Hk. destruct k as [c|c|c| | | | | | | | | | |]; try contradiction; try reflexivity.
  - destruct Hk as [Hd Hk].
    assert (N : forall y, In y ["<"; ">"; "f"; "b"; "r"; "."]%string -> is_char c y = false) by (intros y; apply not_char, Hk).
    assert (Nd : N.eqb c c_del = false) by (apply N.eqb_neq; exact Hd).
    unfold emacs_core, emacs_alt. rewrite (N "."%string) by (cbn; tauto).
    rewrite (N "<"%string), (N ">"%string), Nd, (N "f"%string), (N "b"%string), (N "r"%string) by (cbn; tauto).
    reflexivity.
  - cbn [emacs_idle] in Hk.
    assert (N : forall y, In y ["l"; "a"; "e"; "b"; "f"; "d"; "p"; "n"; "u"; "k"; "w"; "x"]%string -> is_char c y = false).
    { intros y Hy. eapply not_char; [exact Hk|]. cbn in Hy |- *. tauto. }
    unfold emacs_core, emacs_ctrl.
    rewrite (N "l"%string), (N "a"%string), (N "e"%string), (N "b"%string), (N "f"%string), (N "d"%string) by (cbn; tauto).
    rewrite (N "p"%string), (N "n"%string), (N "u"%string), (N "k"%string), (N "w"%string), (N "x"%string) by (cbn; tauto).
    reflexivity.
Qed.
Lemma emacs_plain : forall k, emacs_idle k -> plain_key k.
Proof.
  intros k Hk. destruct k as [c|c|c| | | | | | | | | | |]; try exact I; try contradiction.
  intros y Hy. eapply not_char; [exact Hk|]. cbn in Hy |- *. tauto.
Qed.
Lemma vi_plain : forall k, vi_idle k -> plain_key k.
Proof.
  intros k Hk. destruct k as [c|c|c| | | | | | | | | | |]; try exact I; try contradiction.
  intros y Hy. eapply not_char; [exact Hk|]. cbn in Hy |- *. tauto.
Qed.
Lemma vi_idle_core : forall E k v s, vi_idle k -> vmode_of v = MNormal \/ vmode_of v = MInsert ->
  vi_core E k (v, s) = ORet tt (v, s).
Proof.
  intros E k v s Hk Hm. unfold vi_core, bind, getk.
  assert (F : exists n, vi_fuel v = S n) by (unfold vi_fuel; exists (3 * (length (v_last v) + length (v_cur v)) + 9); lia).
  destruct F as [n ->]. cbn [vi_core_fuel]. unfold bind, getk. generalize (vi_core_fuel n E) as rec. intro rec.
  destruct k as [c|c|c| | | | | | | | | | |]; try contradiction.
  1, 3, 4: destruct Hm as [-> | ->]; reflexivity.
  cbn [vi_idle] in Hk.
  assert (N : forall y, In y ["l"; "r"; "["]%string -> is_char c y = false).
  { intros y Hy. eapply not_char; [exact Hk|]. cbn in Hy |- *. tauto. }
  destruct Hm as [-> | ->]; unfold vi_normal, vi_insert, vi_common; cbv beta zeta iota.
  - rewrite (N "r"%string), (N "l"%string) by (cbn; tauto). reflexivity.
  - rewrite (N "["%string), (N "l"%string) by (cbn; tauto). reflexivity.
Qed.

Lemma emacs_idle_key : forall E k x s t c, emacs_idle k -> line_is s t c ->
  handle_key emacs_core E k (x, s) =
    if e_wok E then ORet false (emacs_new, set_hint None s) else OErr EOther (emacs_new, set_hint None s).
Proof. intros E k x s t c Hk Hl. exact (idle_key emacs_core E k x s t c _ (emacs_plain k Hk) Hl (emacs_idle_core E k x s Hk)). Qed.
Lemma vi_idle_key : forall E k v s t c, vi_idle k -> vmode_of v = MNormal \/ vmode_of v = MInsert -> line_is s t c ->
  handle_key vi_core E k (v, s) =
    if e_wok E then ORet false (v, set_hint None s) else OErr EOther (v, set_hint None s).
Proof. intros E k v s t c Hk Hm Hl. exact (idle_key vi_core E k v s t c _ (vi_plain k Hk) Hl (vi_idle_core E k v s Hk Hm)). Qed.
