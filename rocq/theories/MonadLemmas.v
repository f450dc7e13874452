(** Reasoning about the state monad: weakest preconditions. *)
From Verif Require Import Base.
Local Open Scope monad_scope.

(** [wp m s Q X P]: from [s], a normal return of [m] satisfies [Q], an error
    [X] and a panic [P].  Exhausted fuel satisfies everything (Vi only; see
    ViRepeat.v). *)
Definition wp {S A} (m : M S A) (s : S) (Q : A -> S -> Prop) (X : ioerr -> S -> Prop)
           (P : panic -> Prop) : Prop :=
  match m s with
  | ORet a s' => Q a s'
  | OErr e s' => X e s'
  | OPanic p => P p
  | OFuel => True
  end.

Section WP.
  Context {S : Type}.
  Implicit Types (X : ioerr -> S -> Prop) (P : panic -> Prop).

  Lemma wp_bind : forall {A B} (m : M S A) (k : A -> M S B) s Q X P,
    wp m s (fun a s' => wp (k a) s' Q X P) X P -> wp (bind m k) s Q X P.
  Proof. intros A B m k s Q X P H. unfold wp, bind in *. destruct (m s); auto. Qed.

  Lemma wp_bind_inv : forall {A B} (m : M S A) (k : A -> M S B) s Q X P,
    wp (bind m k) s Q X P -> wp m s (fun a s' => wp (k a) s' Q X P) X P.
  Proof. intros A B m k s Q X P H. unfold wp, bind in *. destruct (m s); auto. Qed.

  Lemma wp_ret : forall {A} (a : A) s (Q : A -> S -> Prop) X P, Q a s -> wp (ret a) s Q X P.
  Proof. intros. exact H. Qed.
  Lemma wp_fail : forall {A} e s (Q : A -> S -> Prop) X P, X e s -> wp (fail e) s Q X P.
  Proof. intros. exact H. Qed.
  Lemma wp_pan : forall {A} p s (Q : A -> S -> Prop) X P, P p -> wp (pan p) s Q X P.
  Proof. intros. exact H. Qed.
  Lemma wp_get : forall s (Q : S -> S -> Prop) X P, Q s s -> wp get s Q X P.
  Proof. intros. exact H. Qed.
  Lemma wp_gets : forall {A} (f : S -> A) s (Q : A -> S -> Prop) X P, Q (f s) s -> wp (gets f) s Q X P.
  Proof. intros. exact H. Qed.
  Lemma wp_modify : forall (f : S -> S) s (Q : unit -> S -> Prop) X P,
    Q tt (f s) -> wp (modify f) s Q X P.
  Proof. intros. exact H. Qed.
  Lemma wp_when : forall b (m : M S unit) s (Q : unit -> S -> Prop) X P,
    (b = true -> wp m s Q X P) -> (b = false -> Q tt s) -> wp (when b m) s Q X P.
  Proof. intros b m s Q X P H1 H2. destruct b; simpl; auto. exact (H2 eq_refl). Qed.
  Lemma wp_liftr : forall {A} (r : res A) s (Q : A -> S -> Prop) X P,
    (forall a, r = Val a -> Q a s) -> (forall p, r = Pan p -> P p) -> wp (liftr r) s Q X P.
  Proof. intros A r s Q X P H1 H2. unfold wp, liftr. destruct r; auto. Qed.

  Lemma wp_mono : forall {A} (m : M S A) s (Q Q' : A -> S -> Prop) X X' P P',
    wp m s Q X P -> (forall a s', Q a s' -> Q' a s') -> (forall e s', X e s' -> X' e s') ->
    (forall p, P p -> P' p) -> wp m s Q' X' P'.
  Proof. intros A m s Q Q' X X' P P' H HQ HX HP. unfold wp in *. destruct (m s); auto. Qed.

  (** What is known of all outcomes can be used separately. *)
  Lemma wp_and : forall {A} (m : M S A) s (Q Q' : A -> S -> Prop) X X' P P',
    wp m s Q X P -> wp m s Q' X' P' ->
    wp m s (fun a s' => Q a s' /\ Q' a s') (fun e s' => X e s' /\ X' e s')
       (fun p => P p /\ P' p).
  Proof. intros A m s Q Q' X X' P P' H H'. unfold wp in *. destruct (m s); auto. Qed.

  Lemma wp_ret_of : forall {A} (m : M S A) s Q X P a s', wp m s Q X P -> m s = ORet a s' -> Q a s'.
  Proof. intros A m s Q X P a s' H E. unfold wp in H. rewrite E in H. exact H. Qed.
  Lemma wp_err_of : forall {A} (m : M S A) s Q X P e s', wp m s Q X P -> m s = OErr e s' -> X e s'.
  Proof. intros A m s Q X P e s' H E. unfold wp in H. rewrite E in H. exact H. Qed.
  Lemma wp_pan_of : forall {A} (m : M S A) s Q X P p, wp m s Q X P -> m s = OPanic p -> P p.
  Proof. intros A m s Q X P p H E. unfold wp in H. rewrite E in H. exact H. Qed.

  (** Loops *)
  Lemma wp_mfor : forall {A} (body : A -> M S unit) (I : S -> Prop) X P l s,
    (forall x s, In x l -> I s -> wp (body x) s (fun _ s' => I s') X P) -> I s ->
    wp (mfor l body) s (fun _ s' => I s') X P.
  Proof.
    intros A body I X P l. induction l as [|x l IH]; intros s H Hs; cbn [mfor].
    - apply wp_ret. exact Hs.
    - apply wp_bind. eapply wp_mono; [apply H; [left; reflexivity|exact Hs]| | |]; auto.
      intros u s' Hs'. apply IH; [|exact Hs']. intros y s0 Hy. apply H. right. exact Hy.
  Qed.

  Lemma wp_ploop : forall (body : M S bool) (I : S -> Prop) X P p s,
    (forall s, I s -> wp body s (fun _ s' => I s') X P) -> I s ->
    wp (ploop p body) s (fun _ s' => I s') X P.
  Proof.
    intros body I X P p. induction p as [q IH|q IH|]; intros s H Hs; cbn [ploop].
    - apply wp_bind. eapply wp_mono; [apply H; exact Hs| | |]; auto. intros c s1 H1.
      destruct c; [|apply wp_ret; exact H1].
      apply wp_bind. eapply wp_mono; [apply IH; [exact H|exact H1]| | |]; auto. intros c s2 H2.
      destruct c; [|apply wp_ret; exact H2]. apply IH; assumption.
    - apply wp_bind. eapply wp_mono; [apply IH; [exact H|exact Hs]| | |]; auto. intros c s2 H2.
      destruct c; [|apply wp_ret; exact H2]. apply IH; assumption.
    - apply H. exact Hs.
  Qed.

  Lemma wp_Nloop : forall (body : M S bool) (I : S -> Prop) X P n s,
    (forall s, I s -> wp body s (fun _ s' => I s') X P) -> I s ->
    wp (Nloop n body) s (fun _ s' => I s') X P.
  Proof.
    intros body I X P n s H Hs. unfold Nloop. destruct n as [|p]; [apply wp_ret; exact Hs|].
    apply wp_bind. eapply wp_mono; [apply wp_ploop; [exact H|exact Hs]| | |]; auto.
  Qed.

  (** The binary loop is the unary one. *)
  Lemma bind_ret_r : forall (m : M S bool) s, bind m (fun c => ret c) s = m s.
  Proof. intros m s. unfold bind, ret. destruct (m s); reflexivity. Qed.
  Lemma nloop_app : forall n m (body : M S bool) s,
    nloop (n + m) body s = bind (nloop n body) (fun c => if c then nloop m body else ret false) s.
  Proof.
    induction n as [|n IH]; intros m body s; [reflexivity|].
    cbn [nloop Nat.add]. unfold bind. destruct (body s) as [c s'| | |]; try reflexivity.
    destruct c; [|reflexivity]. rewrite IH. reflexivity.
  Qed.
  Lemma bind_ext : forall {A B} (m m' : M S A) (k k' : A -> M S B) s,
    m s = m' s -> (forall a s', k a s' = k' a s') -> bind m k s = bind m' k' s.
  Proof. intros A B m m' k k' s H H'. unfold bind. rewrite <- H. destruct (m s); auto. Qed.
  Lemma ploop_nloop : forall p (body : M S bool) s, ploop p body s = nloop (Pos.to_nat p) body s.
  Proof.
    induction p as [q IH|q IH|]; intros body s; cbn [ploop].
    - rewrite Pos2Nat.inj_xI. cbn [nloop]. apply bind_ext; [reflexivity|]. intros [|] s'; [|reflexivity].
      replace (2 * Pos.to_nat q) with (Pos.to_nat q + Pos.to_nat q) by lia.
      rewrite nloop_app. apply bind_ext; [apply IH|]. intros [|] s2; [apply IH|reflexivity].
    - rewrite Pos2Nat.inj_xO.
      replace (2 * Pos.to_nat q) with (Pos.to_nat q + Pos.to_nat q) by lia.
      rewrite nloop_app. apply bind_ext; [apply IH|]. intros [|] s2; [apply IH|reflexivity].
    - change (Pos.to_nat 1) with 1. cbn [nloop]. unfold bind. destruct (body s) as [c s2| | |]; try reflexivity.
      destruct c; reflexivity.
  Qed.
End WP.

(** Relations kept by a computation, whatever its outcome. *)
Definition keeps {S A} (R : S -> S -> Prop) (m : M S A) : Prop :=
  forall s, match m s with ORet _ s' => R s s' | OErr _ s' => R s s' | _ => True end.

Definition refl {S} (R : S -> S -> Prop) := forall s, R s s.
Definition trans {S} (R : S -> S -> Prop) := forall a b c, R a b -> R b c -> R a c.

Section Keeps.
  Context {S : Type} (R : S -> S -> Prop) (Rr : refl R) (Rt : trans R).

  Lemma keeps_bind : forall {A B} (m : M S A) (k : A -> M S B),
    keeps R m -> (forall a, keeps R (k a)) -> keeps R (bind m k).
  Proof using Rt.
    intros A B m k Hm Hk s. unfold bind. specialize (Hm s). destruct (m s) as [a s'| | |]; auto.
    specialize (Hk a s'). destruct (k a s'); eauto.
  Qed.
  Lemma keeps_ret : forall {A} (a : A), keeps R (ret a).
  Proof using Rr. intros A a s. apply Rr. Qed.
  Lemma keeps_fail : forall {A} e, keeps R (@fail S A e).
  Proof using Rr. intros A e s. apply Rr. Qed.
  Lemma keeps_pan : forall {A} p, keeps R (@pan S A p).
  Proof using. intros A p s. exact I. Qed.
  Lemma keeps_get : keeps R (@get S).
  Proof using Rr. intros s. apply Rr. Qed.
  Lemma keeps_gets : forall {A} (f : S -> A), keeps R (gets f).
  Proof using Rr. intros A f s. apply Rr. Qed.
  Lemma keeps_modify : forall f, (forall s, R s (f s)) -> keeps R (modify f).
  Proof using. intros f H s. apply H. Qed.
  Lemma keeps_when : forall b (m : M S unit), keeps R m -> keeps R (when b m).
  Proof using Rr. intros b m H. destruct b; [exact H|apply keeps_ret]. Qed.
  Lemma keeps_liftr : forall {A} (r : res A), keeps R (liftr r).
  Proof using Rr. intros A r s. unfold liftr. destruct r; [apply Rr|exact I]. Qed.
  Lemma keeps_mfor : forall {A} (body : A -> M S unit) l,
    (forall x, keeps R (body x)) -> keeps R (mfor l body).
  Proof using Rr Rt.
    intros A body l H. induction l as [|x l IH]; cbn [mfor]; [apply keeps_ret|].
    apply keeps_bind; [apply H|intros _; exact IH].
  Qed.
  Lemma keeps_Nloop : forall n (body : M S bool), keeps R body -> keeps R (Nloop n body).
  Proof using Rr Rt.
    intros n body H. unfold Nloop. destruct n as [|p]; [apply keeps_ret|].
    apply keeps_bind; [|intros; apply keeps_ret].
    induction p as [q IH|q IH|]; cbn [ploop].
    - apply keeps_bind; [exact H|]. intros [|]; [|apply keeps_ret].
      apply keeps_bind; [exact IH|]. intros [|]; [exact IH|apply keeps_ret].
    - apply keeps_bind; [exact IH|]. intros [|]; [exact IH|apply keeps_ret].
    - exact H.
  Qed.
End Keeps.

(** * Equations for running a program

    Rewriting with these keeps the kernel from comparing unfolded programs. *)
Lemma bind_modify : forall {S A} (f : S -> S) (k : unit -> M S A) s, bind (modify f) k s = k tt (f s).
Proof. reflexivity. Qed.
Lemma bind_get : forall {S A} (k : S -> M S A) s, bind get k s = k s s.
Proof. reflexivity. Qed.
Lemma bind_ret_eq : forall {S A B} (m : M S A) (k : A -> M S B) s a s',
  m s = ORet a s' -> bind m k s = k a s'.
Proof. intros S A B m k s a s' H. unfold bind. rewrite H. reflexivity. Qed.
Lemma bind_inv : forall {S A B} (m : M S A) (k : A -> M S B) s b s',
  bind m k s = ORet b s' -> exists a s1, m s = ORet a s1 /\ k a s1 = ORet b s'.
Proof.
  intros S A B m k s b s' H. unfold bind in H. destruct (m s) as [a s1| | |]; try discriminate.
  exists a, s1. split; [reflexivity|exact H].
Qed.
