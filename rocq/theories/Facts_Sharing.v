(* What force_xref_stream, group_obj_into_stream and commit write in shared objects. *)
From Coq Require Import List ZArith Bool Lia.
From Coq Require Import ZifyBool ZifyNat.
From Verif Require Import PyBase Model_Objects Model_Filters Model_Filestruct Model_Docstruct Model_Heap
  Spec_Heap Facts_Base Facts_Doc Facts_Heap.
Import ListNotations.
Local Open Scope Z_scope.

(* ---------------- cells below n are kept, except those of X ---------------- *)
Definition keepn (X : loc -> Prop) (n : nat) (h h' : heap) : Prop :=
  (n <= length h')%nat /\ forall l, (l < n)%nat -> ~ X l -> nth_error h' l = nth_error h l.
Lemma keepn_refl X n h : (n <= length h)%nat -> keepn X n h h. Proof. split; auto. Qed.
Lemma keepn_trans X n a b c : keepn X n a b -> keepn X n b c -> keepn X n a c.
Proof. intros [A B] [C D]. split; auto. intros l L N. rewrite D, B; auto. Qed.
Lemma keepn_alloc X n h c : (n <= length h)%nat -> keepn X n h (h ++ [c]).
Proof. intros L. split; [rewrite app_length; cbn; lia|]. intros l H _. rewrite nth_error_app1; auto. lia. Qed.
Lemma keepn_set X n h l c : (n <= length h)%nat -> (n <= l)%nat -> keepn X n h (lset h l c).
Proof. intros L H. split; [now rewrite lset_len|]. intros k K _. apply nth_lset_other. lia. Qed.
Lemma keepn_only X h h' : keepn X (length h) h h' -> only X h h'.
Proof. intros [_ K] l c E N. rewrite K; auto. apply nth_error_Some. congruence. Qed.

Section Sharing.
Context {ZL : Zlib}.
(* the cells that may change, and the heap at the start *)
Context (X : loc -> Prop) (h0 : heap).

(* The parts of nd that commit writes are at locations from n on. *)
Record own (n : nat) (h : heap) (nd : hdoc) : Prop := {
  own_len : (n <= length h)%nat;
  own_rows : exists rows, nth_error h (hd_index nd) = Some (CRows rows) /\ forall rl, pyget rows (-1) = Ok rl -> (n <= rl)%nat;
  own_cache : exists c, nth_error h (hd_cache nd) = Some (CCache c) /\ (forall l, pyget c 0 = Ok (Some l) -> (n <= l)%nat) /\
              (forall l, In (Some l) c -> (l < length h)%nat) /\
              forall l d f s e, In (Some l) c -> nth_error h l = Some (CEnv d f s e) -> (n <= f)%nat;
  own_data : exists data, nth_error h (hd_data nd) = Some (CData data) /\ forall xl, pyget data (-1) = Ok xl -> (n <= xl)%nat;
  own_old : keepn X n h0 h;
  own_locs : (n <= hd_index nd)%nat /\ (n <= hd_cache nd)%nat /\ (n <= hd_data nd)%nat }.

(* how own is kept: the three lists are given, the objects of the cache are the same *)
Lemma own_keep n h h' nd : own n h nd -> (length h <= length h')%nat ->
  (forall c, nth_error h (hd_index nd) = Some c -> nth_error h' (hd_index nd) = Some c) ->
  (forall c, nth_error h (hd_cache nd) = Some c -> nth_error h' (hd_cache nd) = Some c) ->
  (forall c, nth_error h (hd_data nd) = Some c -> nth_error h' (hd_data nd) = Some c) ->
  keepn X n h h' ->
  (forall l d f s e, (l < length h)%nat -> nth_error h' l = Some (CEnv d f s e) -> (n <= f)%nat \/ nth_error h l = Some (CEnv d f s e)) ->
  own n h' nd.
Proof.
  intros [L (rows & R1 & R2) (ca & C1 & C2 & C3 & C4) (da & D1 & D2) OK O] LL K1 K2 K3 K5 K4. constructor; auto.
  - lia.
  - exists rows. auto.
  - exists ca. split; auto. split; auto. split; [intros l I; apply C3 in I; lia|].
    intros l d f s e I E. destruct (K4 l d f s e (C3 _ I) E); auto. eauto.
  - exists da. auto.
  - eapply keepn_trans; eauto.
Qed.
Lemma own_alloc n h nd c : own n h nd -> own n (h ++ [c]) nd.
Proof.
  intros O. apply (own_keep n h); auto.
  - rewrite app_length. lia.
  - intros x. apply nth_app_old.
  - intros x. apply nth_app_old.
  - intros x. apply nth_app_old.
  - apply keepn_alloc. apply O.
  - intros l d f s e H E. right. rewrite nth_error_app1 in E; auto.
Qed.
(* a write of a cell that is none of the three lists *)
Definition plain (c : cell) : Prop := match c with CRows _ | CCache _ | CData _ => False | _ => True end.
Lemma own_write n h nd l c c' : own n h nd -> (n <= l)%nat -> nth_error h l = Some c -> plain c ->
  (forall d f s e, c' = CEnv d f s e -> (n <= f)%nat) -> own n (lset h l c') nd.
Proof.
  intros O NL E P V. pose proof O as [L (rows & R1 & R2) (ca & C1 & C2 & C3 & C4) (da & D1 & D2) OK OL].
  assert (Hl : (l < length h)%nat) by (apply nth_error_Some; congruence).
  apply (own_keep n h); auto; try (rewrite lset_len; lia).
  - intros x XX. rewrite nth_lset_other; auto. intros ->. rewrite R1 in E. inversion E; subst. contradiction.
  - intros x XX. rewrite nth_lset_other; auto. intros ->. rewrite C1 in E. inversion E; subst. contradiction.
  - intros x XX. rewrite nth_lset_other; auto. intros ->. rewrite D1 in E. inversion E; subst. contradiction.
  - now apply keepn_set.
  - intros k d f s e K XX. destruct (Nat.eq_dec l k) as [->|N].
    + rewrite nth_lset_same in XX by auto. inversion XX; subst. left. eauto.
    + rewrite nth_lset_other in XX by auto. auto.
Qed.
Lemma own_set_rows n h nd rows : own n h nd -> (forall rl, pyget rows (-1) = Ok rl -> (n <= rl)%nat) ->
  own n (lset h (hd_index nd) (CRows rows)) nd.
Proof.
  intros [L (r0 & R1 & R2) (ca & C1 & C2 & C3 & C4) (da & D1 & D2) OK OL] H.
  assert (Hl : (hd_index nd < length h)%nat) by (apply nth_error_Some; congruence).
  constructor; auto; rewrite ?lset_len; auto.
  - exists rows. split; auto. now apply nth_lset_same.
  - exists ca. rewrite nth_lset_other by congruence. split; auto. split; auto. split; auto.
    intros l d f s e I E. destruct (Nat.eq_dec (hd_index nd) l) as [<-|N].
    + rewrite nth_lset_same in E by auto. discriminate.
    + rewrite nth_lset_other in E by auto. eauto.
  - exists da. rewrite nth_lset_other by congruence. auto.
  - eapply keepn_trans; [exact OK | apply keepn_set; tauto].
Qed.
Lemma own_set_data n h nd data : own n h nd -> (forall xl, pyget data (-1) = Ok xl -> (n <= xl)%nat) ->
  own n (lset h (hd_data nd) (CData data)) nd.
Proof.
  intros [L (r0 & R1 & R2) (ca & C1 & C2 & C3 & C4) (da & D1 & D2) OK OL] H.
  assert (Hl : (hd_data nd < length h)%nat) by (apply nth_error_Some; congruence).
  constructor; auto; rewrite ?lset_len; auto.
  - exists r0. rewrite nth_lset_other by congruence. auto.
  - exists ca. rewrite nth_lset_other by congruence. split; auto. split; auto. split; auto.
    intros l d f s e I E. destruct (Nat.eq_dec (hd_data nd) l) as [<-|N].
    + rewrite nth_lset_same in E by auto. discriminate.
    + rewrite nth_lset_other in E by auto. eauto.
  - exists data. split; auto. now apply nth_lset_same.
  - eapply keepn_trans; [exact OK | apply keepn_set; tauto].
Qed.
Lemma own_set_cache n h nd c0 k x c : own n h nd -> nth_error h (hd_cache nd) = Some (CCache c0) -> pyset c0 k (Some x) = Ok c ->
  (n <= x < length h)%nat -> (forall d f s e, nth_error h x = Some (CEnv d f s e) -> (n <= f)%nat) ->
  own n (lset h (hd_cache nd) (CCache c)) nd.
Proof.
  intros [L (r0 & R1 & R2) (ca & C1 & C2 & C3 & C4) (da & D1 & D2) OK OL] E0 P XB V. rewrite E0 in C1. inversion C1; subst ca. clear C1.
  assert (Hl : (hd_cache nd < length h)%nat) by (apply nth_error_Some; congruence).
  unfold pyset in P. destruct (pyidx c0 k) as [i|] eqn:Ei; try discriminate. inversion P; subst c. clear P.
  assert (IN : forall l, In (Some l) (lset c0 i (Some x)) -> l = x \/ In (Some l) c0).
  { intros l I. apply In_nth_error in I. destruct I as [j J]. destruct (Nat.eq_dec i j) as [->|N].
    - apply pyidx_lt in Ei. rewrite nth_lset_same in J by auto. left. congruence.
    - rewrite nth_lset_other in J by auto. right. eapply nth_error_In; eauto. }
  constructor; auto; rewrite ?lset_len; auto.
  - exists r0. rewrite nth_lset_other by congruence. auto.
  - exists (lset c0 i (Some x)). split; [now apply nth_lset_same|]. split; [|split].
    + intros l. unfold pyget. rewrite (pyidx_len c0 _ 0 (lset_len _ _ _)). destruct (pyidx c0 0) as [j|] eqn:Ej; [|discriminate].
      destruct (Nat.eq_dec i j) as [->|N].
      * rewrite nth_lset_same by (eapply pyidx_lt; eauto). cbn. intros [= <-]. lia.
      * rewrite nth_lset_other by auto. intros G. apply C2. unfold pyget. now rewrite Ej.
    + intros l I. apply IN in I. destruct I as [->|I]; [lia | auto].
    + intros l d f s e I E. destruct (Nat.eq_dec (hd_cache nd) l) as [<-|N].
      * rewrite nth_lset_same in E by auto. discriminate.
      * rewrite nth_lset_other in E by auto. apply IN in I. destruct I as [->|I]; eauto.
  - exists da. rewrite nth_lset_other by congruence. auto.
  - eapply keepn_trans; [exact OK | apply keepn_set; tauto].
Qed.

(* ---------------- computations that only write what nd owns ---------------- *)
Definition safe {A} (n : nat) (nd : hdoc) (Pre : heap -> Prop) (m : hm A) (Q : A -> heap -> Prop) : Prop :=
  forall h, own n h nd -> Pre h -> forall h' r, m h = (h', r) ->
  keepn X n h h' /\ own n h' nd /\ forall a, r = Ok a -> Q a h'.
Lemma safe_bind {A B} n nd Pre (m : hm A) Q (f : A -> hm B) R :
  safe n nd Pre m Q -> (forall a, safe n nd (Q a) (f a) R) -> safe n nd Pre (hbind m f) R.
Proof.
  intros M F h O P h' r E. unfold hbind in E. destruct (m h) as [h1 r1] eqn:E1.
  destruct (M h O P _ _ E1) as (K1 & O1 & Q1). destruct r1 as [a|e|].
  - destruct (F a h1 O1 (Q1 a eq_refl) _ _ E) as (K2 & O2 & Q2). split; auto. eapply keepn_trans; eauto.
  - inversion E; subst. split; auto. split; auto. discriminate.
  - inversion E; subst. split; auto. split; auto. discriminate.
Qed.
Lemma safe_look {A} n nd (Pre : heap -> Prop) (f : heap -> res A) : safe n nd Pre (look f) (fun a h => f h = Ok a /\ Pre h).
Proof. intros h O P h' r E. inversion E; subst. split; [apply keepn_refl; apply O|]. auto. Qed.
Lemma safe_lift {A} n nd (Pre : heap -> Prop) (x : res A) : safe n nd Pre (hlift x) (fun a h => x = Ok a /\ Pre h).
Proof. intros h O P h' r E. inversion E; subst. split; [apply keepn_refl; apply O|]. auto. Qed.
Lemma safe_ret {A} n nd (Pre : heap -> Prop) (x : A) (Q : A -> heap -> Prop) : (forall h, own n h nd -> Pre h -> Q x h) -> safe n nd Pre (hret x) Q.
Proof. intros H h O P h' r E. inversion E; subst. split; [apply keepn_refl; apply O|]. split; auto. intros a [= <-]. auto. Qed.
Lemma safe_pre {A} n nd (P1 P2 : heap -> Prop) (m : hm A) Q : (forall h, own n h nd -> P1 h -> P2 h) -> safe n nd P2 m Q -> safe n nd P1 m Q.
Proof. intros S M h O P. apply M; auto. Qed.
Lemma safe_post {A} n nd P (m : hm A) (Q1 Q2 : A -> heap -> Prop) : (forall a h, Q1 a h -> Q2 a h) -> safe n nd P m Q1 -> safe n nd P m Q2.
Proof. intros S M h O H h' r E. destruct (M h O H h' r E) as (K & O' & Q). auto. Qed.
Lemma safe_alloc n nd (Pre : heap -> Prop) c : safe n nd Pre (alloc c) (fun a h => (n <= a)%nat /\ nth_error h a = Some c).
Proof.
  intros h O P h' r E. inversion E; subst. split; [apply keepn_alloc; apply O|]. split; [now apply own_alloc|].
  intros a [= <-]. split; [apply O | apply nth_app_new].
Qed.
Notation any := (fun _ => True).
Notation any2 := (fun _ _ => True).

Lemma pick_at h l c : at_ h l = Ok c -> nth_error h l = Some c.
Proof. apply at_inv. Qed.
Lemma rows_at_inv h l v : rows_at h l = Ok v -> nth_error h l = Some (CRows v).
Proof. unfold rows_at. destruct (at_ h l) as [[]| |] eqn:E; try discriminate. apply at_inv in E. cbn. congruence. Qed.
Lemma row_at_inv h l v : row_at h l = Ok v -> nth_error h l = Some (CRow v).
Proof. unfold row_at. destruct (at_ h l) as [[]| |] eqn:E; try discriminate. apply at_inv in E. cbn. congruence. Qed.
Lemma cache_at_inv h l v : cache_at h l = Ok v -> nth_error h l = Some (CCache v).
Proof. unfold cache_at. destruct (at_ h l) as [[]| |] eqn:E; try discriminate. apply at_inv in E. cbn. congruence. Qed.
Lemma data_at_inv h l v : data_at h l = Ok v -> nth_error h l = Some (CData v).
Proof. unfold data_at. destruct (at_ h l) as [[]| |] eqn:E; try discriminate. apply at_inv in E. cbn. congruence. Qed.
Lemma datum_at_inv h l v : datum_at h l = Ok v -> nth_error h l = Some (CDatum v).
Proof. unfold datum_at. destruct (at_ h l) as [[]| |] eqn:E; try discriminate. apply at_inv in E. cbn. congruence. Qed.
Lemma nums_at_inv h l v : nums_at h l = Ok v -> nth_error h l = Some (CNums v).
Proof. unfold nums_at. destruct (at_ h l) as [[]| |] eqn:E; try discriminate. apply at_inv in E. cbn. congruence. Qed.
Lemma obj_at_inv h l v : obj_val h l = Ok v -> exists c, nth_error h l = Some c /\ plain c.
Proof. unfold obj_val. destruct (at_ h l) as [[]| |] eqn:E; try discriminate; apply at_inv in E; eexists; split; eauto; exact I. Qed.

Section Owned.
Context (n : nat) (nd : hdoc).

Lemma safe_last_row Pre : safe n nd Pre (h_last_row nd) (fun rl h => (n <= rl)%nat /\ Pre h).
Proof.
  unfold h_last_row. eapply safe_bind; [apply safe_look|]. intros rows. cbn beta.
  eapply safe_post; [|eapply safe_pre; [|apply (safe_lift n nd (fun h => rows_at h (hd_index nd) = Ok rows /\ own n h nd /\ Pre h))]].
  - intros rl h (E & R & O & P). split; auto. destruct O as [_ (rows' & R1 & R2) _ _ _ _].
    apply rows_at_inv in R. rewrite R in R1. inversion R1; subst. auto.
  - cbn. tauto.
Qed.

Lemma safe_trailer f : safe n nd any (change_trailer nd f) any2.
Proof.
  unfold change_trailer. intros h O _ h' r E.
  rewrite bind_look in E. destruct (cache_at h (hd_cache nd)) as [c| |] eqn:E1; try (inversion E; subst; split; [apply keepn_refl; apply O | auto]).
  rewrite bind_lift in E. destruct (pyget c 0) as [x| |] eqn:E2; try (inversion E; subst; split; [apply keepn_refl; apply O | auto]).
  rewrite bind_lift in E. destruct (of_opt ETypeError x) as [l| |] eqn:E3; try (inversion E; subst; split; [apply keepn_refl; apply O | auto]).
  destruct x as [l'|]; [|discriminate]. cbn in E3. inversion E3; subst l'.
  rewrite bind_look in E. destruct (obj_val h l) as [o| |] eqn:E4; try (inversion E; subst; split; [apply keepn_refl; apply O | auto]).
  destruct o; try (inversion E; subst; split; [apply keepn_refl; apply O | auto]).
  unfold writec in E. inversion E; subst. destruct (obj_at_inv _ _ _ E4) as (c0 & N0 & P0).
  assert (n <= l)%nat.
  { destruct O as [_ _ (ca & C1 & C2 & _) _ _ _]. apply cache_at_inv in E1. rewrite E1 in C1. inversion C1; subst. auto. }
  split; [apply keepn_set; auto; apply O|]. split; auto. eapply own_write; eauto. discriminate.
Qed.

(* a new object at x goes in the cache *)
Lemma safe_put k x : safe n nd (fun h => (n <= x < length h)%nat /\ forall d f s e, nth_error h x = Some (CEnv d f s e) -> (n <= f)%nat)
  (put_cache (hd_cache nd) k (Some x)) any2.
Proof.
  intros h O (XB & V) h' r E. unfold put_cache in E.
  rewrite bind_look in E. destruct (cache_at h (hd_cache nd)) as [c| |] eqn:E1; try (inversion E; subst; split; [apply keepn_refl; apply O | auto]).
  rewrite bind_lift in E. destruct (pyset c k (Some x)) as [c'| |] eqn:E2; try (inversion E; subst; split; [apply keepn_refl; apply O | auto]).
  inversion E; subst. apply cache_at_inv in E1. split; [apply keepn_set; apply O|]. split; auto.
  eapply own_set_cache; eauto.
Qed.

Definition env_ready (h : heap) (x : loc) : Prop :=
  (n <= x < length h)%nat /\ forall d f s e, nth_error h x = Some (CEnv d f s e) -> (n <= f)%nat.
Lemma safe_append num o env : safe n nd (fun h => forall l d f s e, env = Some l -> nth_error h l = Some (CEnv d f s e) -> (n <= f)%nat)
  (h_append num o env) (fun x h => env_ready h x).
Proof.
  intros h O P h' r E. unfold h_append in E.
  rewrite bind_lift in E. destruct (serialize o) as [ser| |]; try (inversion E; subst; split; [apply keepn_refl; apply O | split; auto; discriminate]).
  rewrite bind_lift in E. destruct env as [l|]; cbn [of_opt] in E; try (inversion E; subst; split; [apply keepn_refl; apply O | split; auto; discriminate]).
  rewrite bind_read in E. destruct (nth_error h l) as [c|] eqn:El; try (inversion E; subst; split; [apply keepn_refl; apply O | split; auto; discriminate]).
  destruct c; try (inversion E; subst; split; [apply keepn_refl; apply O | split; auto; discriminate]).
  - destruct o0; try (inversion E; subst; split; [apply keepn_refl; apply O | split; auto; discriminate]).
    destruct stream as [s|]; try (inversion E; subst; split; [apply keepn_refl; apply O | split; auto; discriminate]).
    destruct (match dget K_FirstLine d with Some x => x | None => PList [] end); try (inversion E; subst; split; [apply keepn_refl; apply O | split; auto; discriminate]).
    rewrite bind_alloc in E. unfold alloc in E. inversion E; subst.
    split; [eapply keepn_trans; apply keepn_alloc; rewrite ?app_length; destruct O; lia|].
    split; [now do 2 apply own_alloc|]. intros a [= <-]. unfold env_ready. split.
    + rewrite !app_length. cbn. destruct O. lia.
    + intros d' f s' e'. rewrite nth_app_new. intros [= _ <- _ _]. destruct O; auto.
  - destruct s as [s|]; try (inversion E; subst; split; [apply keepn_refl; apply O | split; auto; discriminate]).
    rewrite bind_look in E. destruct (nums_at h f) as [l0| |] eqn:En; try (inversion E; subst; split; [apply keepn_refl; apply O | split; auto; discriminate]).
    rewrite bind_write in E. unfold alloc in E. inversion E; subst. specialize (P _ _ _ _ _ eq_refl El).
    apply nums_at_inv in En.
    assert (O1 : own n (lset h f (CNums (l0 ++ [PInt num; PInt (blen s)]))) nd) by (eapply own_write; eauto; [exact I | discriminate]).
    split; [refine (keepn_trans _ _ _ _ _ (keepn_set X n h f _ (own_len _ _ _ O) P) (keepn_alloc _ _ _ _ (own_len _ _ _ O1)))|].
    split; [now apply own_alloc|]. intros a [= <-]. unfold env_ready. split.
    + rewrite !app_length. cbn. destruct O1. lia.
    + intros d' f' s' e'. rewrite nth_app_new. intros [= _ <- _ _]. auto.
Qed.

Lemma safe_True {A} Pre (m : hm A) Q : safe n nd any m Q -> safe n nd Pre m Q.
Proof. intros M h O _. now apply M. Qed.

Lemma safe_embed cur l : safe n nd any (h_embed cur (hd_cache nd) l) any2.
Proof.
  induction l as [|[c a] l IH]; cbn [h_embed].
  - apply safe_ret. auto.
  - eapply safe_bind; [apply safe_lift|]. intros sl. eapply safe_bind; [apply safe_lift|]. intros e. cbn beta.
    destruct (negb (is_del a) && truthy (n_env e)); [|now apply safe_True].
    eapply safe_bind; [apply safe_lift|]. intros env.
    eapply safe_bind; [apply safe_look|]. intros cache.
    eapply safe_bind; [apply safe_lift|]. intros ol.
    eapply safe_bind; [apply safe_look|]. intros o.
    eapply safe_bind; [apply safe_lift|]. intros envl. cbn beta.
    eapply safe_bind; [eapply safe_pre; [|apply safe_append]|].
    { cbn beta. intros h O (P1 & _ & _ & P2 & _) k d f s e' -> K. destruct O as [_ _ (ca & C1 & _ & _ & C4) _ _ _].
      apply cache_at_inv in P2. rewrite P2 in C1. inversion C1; subst ca. eapply C4; eauto.
      unfold pyget in P1. destruct (pyidx cache env); try discriminate. destruct (nth_error cache n0) eqn:E0; try discriminate. cbn in P1. inversion P1; subst. eapply nth_error_In; eauto. }
    intros x. eapply safe_bind; [apply safe_put|]. intros u.
    eapply safe_bind; [apply safe_look|]. intros ne. eapply safe_bind; [apply safe_lift|]. intros pos.
    eapply safe_bind; [apply safe_True; exact IH|]. intros tl. apply safe_ret. auto.
Qed.

Lemma safe_new_slot s : safe n nd any (new_slot s) any2.
Proof.
  destruct s as [|e|ss]; cbn [new_slot].
  - apply safe_ret. auto.
  - eapply safe_bind; [apply safe_alloc|]. intros l. apply safe_ret. auto.
  - generalize (@nil loc). induction ss as [|[|e|l] ss IH]; intros acc.
    + eapply safe_bind; [apply safe_alloc|]. intros l. apply safe_ret. auto.
    + eapply safe_post; [|apply safe_lift]. auto.
    + eapply safe_bind; [apply safe_alloc|]. intros l. apply safe_True. apply IH.
    + eapply safe_post; [|apply safe_lift]. auto.
Qed.
Lemma safe_new_slots r : safe n nd any (new_slots r) any2.
Proof.
  induction r as [|s r IH]; cbn [new_slots].
  - apply safe_ret. auto.
  - eapply safe_bind; [apply safe_new_slot|]. intros x. eapply safe_bind; [exact IH|]. intros y. apply safe_ret. auto.
Qed.
Lemma safe_new_row r : safe n nd any (new_row r) (fun l _ => (n <= l)%nat).
Proof.
  unfold new_row. eapply safe_bind; [apply safe_new_slots|]. intros l. eapply safe_post; [|apply safe_alloc].
  intros a h [A _]. exact A.
Qed.

Lemma safe_build chg cur start xsn : safe n nd any (h_build chg cur (hd_cache nd) start xsn) (fun p _ => (n <= snd p)%nat).
Proof.
  unfold h_build. eapply safe_bind; [apply safe_embed|]. intros el1.
  eapply safe_bind; [apply safe_look|]. intros cache1. eapply safe_bind; [apply safe_lift|]. intros [[[[fr el2] newi] cnt] last].
  eapply safe_bind; [apply safe_lift|]. intros c0. cbn beta.
  destruct (negb (truthy xsn)).
  - eapply safe_bind; [apply safe_lift|]. intros built. eapply safe_bind; [apply safe_lift|]. intros newi'.
    eapply safe_bind; [apply safe_True; apply safe_new_row|]. intros nr. apply safe_ret. auto.
  - eapply safe_bind; [apply safe_lift|]. intros x. eapply safe_bind; [apply safe_lift|]. intros d0.
    eapply safe_bind; [apply safe_lift|]. intros [built d1].
    eapply safe_bind; [apply safe_look|]. intros c. eapply safe_bind; [apply safe_lift|]. intros tl.
    eapply safe_bind; [apply safe_lift|]. intros t. cbn beta.
    eapply safe_bind with (Q := any2).
    { intros h O (P1 & P2 & P3 & _ & _ & _ & P4 & _ & P5 & _) h' r E. unfold writec in E. inversion E; subst h' r.
      destruct tl as [l|]; cbn in P1; inversion P1; subst l. clear P1.
      pose proof O as [_ _ (ca & C1 & C2 & C3 & C4) _ _ _].
      destruct (cache_val_parts _ _ _ P5) as (c' & P6 & P7). rewrite P3 in P6. inversion P6; subst c'.
      destruct (rmap_get _ _ _ 0 P7) as [(x' & o & G1 & G2 & G3)|[G1 G2]]; [|congruence].
      rewrite P2 in G1. inversion G1; subst x'. cbn in G3. destruct (obj_at_inv _ _ _ G3) as (cc & N0 & N1).
      apply cache_at_inv in P3. rewrite P3 in C1. inversion C1; subst ca.
      split; [apply keepn_set; [apply O | auto]|]. split; auto. eapply own_write; eauto. discriminate. }
    intros u. eapply safe_bind; [apply safe_lift|]. intros blk. eapply safe_bind; [apply safe_lift|]. intros ni1.
    eapply safe_bind; [apply safe_lift|]. intros ni2. eapply safe_bind; [apply safe_True; apply safe_new_row|]. intros nr.
    apply safe_ret. auto.
Qed.

Lemma safe_set_datum x : safe n nd any (set_last_datum nd x) any2.
Proof.
  unfold set_last_datum. eapply safe_bind; [apply safe_look|]. intros data. eapply safe_bind; [apply safe_lift|]. intros xl.
  eapply safe_bind; [apply safe_look|]. intros dl. intros h O (P1 & P2 & P3 & _) h' r E. unfold writec in E. inversion E; subst h' r.
  apply datum_at_inv in P1. apply data_at_inv in P3.
  assert (n <= xl)%nat.
  { destruct O as [_ _ _ (da & D1 & D2) _ _]. rewrite P3 in D1. inversion D1; subst. auto. }
  split; [apply keepn_set; [apply O | auto]|]. split; auto. eapply own_write; eauto; [exact I | discriminate].
Qed.

Lemma safe_set_rows (f : list loc -> res (list loc)) : (forall r r' rl, f r = Ok r' -> pyget r' (-1) = Ok rl -> (n <= rl)%nat) ->
  safe n nd any (do rows <- look (fun h => rows_at h (hd_index nd)); do rows' <- hlift (f rows); writec (hd_index nd) (CRows rows')) any2.
Proof.
  intros F. eapply safe_bind; [apply safe_look|]. intros rows. eapply safe_bind; [apply safe_lift|]. intros rows'.
  intros h O (P1 & P2 & _) h' r E. unfold writec in E. inversion E; subst h' r.
  split; [apply keepn_set; [apply O | apply O]|]. split; auto. apply own_set_rows; auto. intros rl. now apply (F rows).
Qed.

(* version reads the input document d *)
Lemma safe_write_revision d chg nb x :
  (nb = 1 -> safe n nd any (h_version d) any2) ->
  safe n nd any (h_write_revision d nd chg nb x) any2.
Proof.
  intros HV. unfold h_write_revision.
  eapply safe_bind; [apply safe_look|]. intros data. eapply safe_bind; [apply safe_lift|]. intros xl.
  eapply safe_bind; [apply safe_look|]. intros dl. cbn beta.
  destruct (dt_cut dl); [apply safe_ret; auto|]. apply safe_True.
  eapply safe_bind with (Q := any2).
  { destruct (nb =? 1) eqn:E.
    - eapply safe_bind; [apply HV; lia|]. intros v. apply safe_ret. auto.
    - eapply safe_bind; [apply safe_look|]. intros dv. eapply safe_bind; [apply safe_lift|]. intros i. apply safe_ret. auto. }
  intros start. eapply safe_bind; [apply safe_last_row|]. intros rl. eapply safe_bind; [apply safe_look|]. intros cur.
  eapply safe_bind; [apply safe_True; apply safe_build|]. intros [b nr]. cbn [snd].
  intros h O NR. refine ((_ : safe n nd any _ any2) h O I). clear h O.
  eapply safe_bind with (Q := any2).
  { destruct (nb =? 1); [apply safe_set_datum|].
    eapply safe_bind; [apply safe_lift|]. intros p. destruct b; [apply safe_ret; auto | apply safe_True; apply safe_set_datum]. }
  intros u. apply (safe_set_rows (fun rows => pyset rows (-1) nr)).
  intros r0 r' rl' P1 P2. rewrite (pyset_get_last _ _ _ P1) in P2. inversion P2; subst. exact NR.
Qed.

Lemma safe_commit d chg nb x0 :
  (nb = 1 -> safe n nd any (h_version d) any2) -> x0 <> Some (-1) ->
  safe n nd any (
      do x <- (if truthy x0
               then do x <- h_commit_row nd nb x0; do _ <- change_trailer nd trailer_xref; hret x
               else hret x0);
      do rl <- h_last_row nd;
      do row <- look (fun h => row_at h rl);
      do _ <- change_trailer nd (dset K_Size (PInt (Z.of_nat (length row))));
      do _ <- h_write_revision d nd chg nb x;
      do data <- look (fun h => data_at h (hd_data nd));
      do xl <- hlift (pyget data (-1));
      do dl <- look (fun h => datum_at h xl);
      do fd <- hlift (of_opt EKeyError (dt_fdata dl));
      do xn <- alloc (CDatum (mk_datum None None (Some fd)));
      do _ <- writec (hd_data nd) (CData (data ++ [xn]));
      do e0 <- alloc (CEnt (with_xsn (if truthy x0 then Some (-1) else None)
                              (with_dver (Some nb) (with_over (Some nb) (ient0 0 0)))));
      do rl2 <- h_last_row nd;
      do row2 <- look (fun h => row_at h rl2);
      do nv <- alloc (CRow (HAt e0 :: skipn 1 row2));
      do rows2 <- look (fun h => rows_at h (hd_index nd));
      do _ <- writec (hd_index nd) (CRows (rows2 ++ [nv]));
      do rv <- look (fun h => row_val h rl2);
      do z <- hlift (pyget rv 0);
      do pe <- hlift (match z with
                      | SDict e => Ok e
                      | SList _ => let* s1 := pyget rv 1 in
                                   match s1 with SDict e => Ok e | _ => Exc EAttributeError end
                      | SNone => Exc EAttributeError
                      end);
      do _ <- change_trailer nd (trailer_next (prev_pos pe));
      hret nd) any2.
Proof.
  intros HV NX. eapply safe_bind with (Q := any2).
  { destruct (truthy x0); [|apply safe_ret; auto]. eapply safe_bind with (Q := any2).
    - unfold h_commit_row. destruct x0 as [z|]; [|apply safe_ret; auto].
      destruct (z =? -1) eqn:E; [exfalso; apply NX; f_equal; lia | apply safe_ret; auto].
    - intros x. eapply safe_bind; [apply safe_trailer|]. intros u. apply safe_ret. auto. }
  intros x. eapply safe_bind; [apply safe_last_row|]. intros rl. eapply safe_bind; [apply safe_look|]. intros row.
  eapply safe_bind; [apply safe_True; apply safe_trailer|]. intros u1. eapply safe_bind; [apply safe_write_revision; exact HV|]. intros u2.
  eapply safe_bind; [apply safe_look|]. intros data. eapply safe_bind; [apply safe_lift|]. intros xl.
  eapply safe_bind; [apply safe_look|]. intros dl. eapply safe_bind; [apply safe_lift|]. intros fd.
  eapply safe_bind; [apply safe_alloc|]. intros xn. cbn beta.
  eapply safe_bind with (Q := any2).
  { intros h O (P1 & _) h' r E. unfold writec in E. inversion E; subst h' r. split; [apply keepn_set; apply O|]. split; auto.
    apply own_set_data; auto. intros y. rewrite pyget_last. intros [= <-]. auto. }
  intros u3. eapply safe_bind; [apply safe_alloc|]. intros e0. eapply safe_bind; [apply safe_last_row|]. intros rl2.
  eapply safe_bind; [apply safe_look|]. intros row2. eapply safe_bind; [apply safe_alloc|]. intros nv.
  eapply safe_bind; [apply safe_look|]. intros rows2. cbn beta.
  eapply safe_bind with (Q := any2).
  { intros h O (_ & P1 & _) h' r E. unfold writec in E. inversion E; subst h' r. split; [apply keepn_set; apply O|]. split; auto.
    apply own_set_rows; auto. intros y. rewrite pyget_last. intros [= <-]. auto. }
  intros u4. eapply safe_bind; [apply safe_look|]. intros rv. eapply safe_bind; [apply safe_lift|]. intros z.
  eapply safe_bind; [apply safe_lift|]. intros pe. eapply safe_bind; [apply safe_True; apply safe_trailer|]. intros u5. apply safe_ret. auto.
Qed.

(* ---------------- reading the input document ---------------- *)
Lemma safe_other cl (m : hm unit) : X cl -> (cl < n)%nat ->
  (forall h h' r, m h = (h', r) -> h' = h \/ exists c c', nth_error h cl = Some (CCache c) /\ h' = lset h cl (CCache c')) ->
  safe n nd any m any2.
Proof.
  intros XC LC M h O _ h' r E. destruct (M _ _ _ E) as [->|(c & c' & E1 & ->)].
  - split; [apply keepn_refl; apply O | auto].
  - assert (K : keepn X n h (lset h cl (CCache c'))).
    { split; [rewrite lset_len; apply O|]. intros l L N. apply nth_lset_other. intros ->. contradiction. }
    split; auto. split; auto. destruct O as [L O1 O2 O3 O4 O5]. destruct O5 as (O5 & O6 & O7).
    apply (own_keep n h); auto; try (intros x EX; rewrite nth_lset_other; auto; lia).
    + constructor; auto.
    + rewrite lset_len. lia.
    + intros l d f s e Hl EX. right. destruct (Nat.eq_dec cl l) as [->|N].
      * rewrite nth_lset_same in EX by auto. discriminate.
      * rewrite nth_lset_other in EX by auto. auto.
Qed.
Lemma put_cases cl k x h h' r : put_cache cl k x h = (h', r) -> h' = h \/ exists c c', nth_error h cl = Some (CCache c) /\ h' = lset h cl (CCache c').
Proof.
  unfold put_cache. rewrite bind_look. destruct (cache_at h cl) as [c| |] eqn:E; try (intros H; now (inversion H; auto)).
  rewrite bind_lift. destruct (pyset c k x) as [c'| |]; try (intros H'; now (inversion H'; auto)). intros H'. inversion H'.
  right. exists c, c'. split; auto. now apply cache_at_inv.
Qed.
Lemma grow_cases cl k h h' r : grow_cache cl k h = (h', r) -> h' = h \/ exists c c', nth_error h cl = Some (CCache c) /\ h' = lset h cl (CCache c').
Proof.
  unfold grow_cache. rewrite bind_look. destruct (cache_at h cl) as [c| |] eqn:E; try (intros H; now (inversion H; auto)).
  destruct (_ <=? k); intros H'; inversion H'; auto. right. do 2 eexists. split; [apply cache_at_inv; eauto | reflexivity].
Qed.
Lemma safe_new_obj o : safe n nd any (new_obj o) any2.
Proof.
  assert (S : safe n nd any (do x <- alloc (CObj o); hret (Some x)) any2).
  { eapply safe_bind; [apply safe_alloc|]. intros x. apply safe_ret. auto. }
  unfold new_obj. destruct o; auto; [apply safe_ret; auto|].
  destruct (dget K_FirstLine d) as [[]|]; auto. eapply safe_bind; [apply safe_alloc|]. intros f.
  eapply safe_bind; [apply safe_alloc|]. intros x. apply safe_ret. auto.
Qed.
Lemma safe_put_embedded cl l : X cl -> (cl < n)%nat -> safe n nd any (h_put_embedded cl l) any2.
Proof.
  intros XC LC. induction l as [|e l IH]; cbn [h_put_embedded]; [apply safe_ret; auto|].
  destruct (e_num e); try (eapply safe_post; [|apply safe_lift]; auto).
  eapply safe_bind; [apply (safe_other cl); auto; intros h h' r; apply grow_cases|]. intros u.
  eapply safe_bind; [apply safe_new_obj|]. intros x.
  eapply safe_bind; [apply (safe_other cl); auto; intros h h' r; apply put_cases|]. intros u'. exact IH.
Qed.
Lemma safe_memoize row p key cl : X cl -> (cl < n)%nat -> safe n nd any (h_memoize row p key cl) any2.
Proof.
  intros XC LC. unfold h_memoize.
  assert (PUT : forall k x, safe n nd any (put_cache cl k x) any2) by (intros k x; apply (safe_other cl); auto; intros h h' r; apply put_cases).
  assert (EXC : forall e Pre, safe n nd Pre (hlift (Exc e : res unit)) any2) by (intros e Pre; eapply safe_post; [|apply safe_lift]; auto).
  eapply safe_bind; [apply safe_lift|]. intros s. eapply safe_bind; [apply safe_lift|]. intros del. cbn beta.
  destruct del; [apply safe_ret; auto|]. eapply safe_bind; [apply safe_look|]. intros c. eapply safe_bind; [apply safe_lift|]. intros v. cbn beta.
  destruct v; [apply safe_ret; auto|]. destruct (key =? 0).
  - eapply safe_bind; [apply safe_lift|]. intros d. eapply safe_bind; [apply safe_True; apply safe_new_obj|]. intros x. apply PUT.
  - destruct s as [|e|]; try apply EXC. destruct (n_env e).
    + eapply safe_bind; [apply safe_lift|]. intros cs. eapply safe_bind; [apply safe_lift|]. intros ce. eapply safe_bind; [apply safe_lift|]. intros so. cbn beta.
      eapply safe_bind; [apply safe_True; apply (safe_other cl); auto; intros h h' r; apply grow_cases|]. intros u.
      eapply safe_bind; [apply safe_new_obj|]. intros x. eapply safe_bind; [apply PUT|]. intros u'.
      destruct so; try apply EXC. eapply safe_bind; [apply safe_lift|]. intros l. apply safe_True. now apply safe_put_embedded.
    + eapply safe_bind; [apply safe_lift|]. intros o. eapply safe_bind; [apply safe_True; apply safe_new_obj|]. intros x. apply PUT.
Qed.
Lemma safe_get d o : X (hd_cache d) -> (hd_cache d < n)%nat -> safe n nd any (h_get_object d o) any2.
Proof.
  intros XC LC. destruct o; cbn [h_get_object]; try (apply safe_ret; auto). unfold h_last_row, h_fdata.
  eapply safe_bind with (Q := any2).
  { eapply safe_bind; [apply safe_look|]. intros r. eapply safe_post; [|apply safe_lift]; auto. }
  intros rl. eapply safe_bind; [apply safe_look|]. intros row. eapply safe_bind with (Q := any2).
  { eapply safe_bind; [apply safe_look|]. intros r. eapply safe_bind; [apply safe_lift|]. intros l.
    eapply safe_bind; [apply safe_look|]. intros x. eapply safe_post; [|apply safe_lift]; auto. }
  intros p. eapply safe_bind; [now apply safe_memoize|]. intros u. eapply safe_bind; [apply safe_look|]. intros c.
  eapply safe_bind; [apply safe_lift|]. intros x. eapply safe_post; [|apply safe_look]; auto.
Qed.
Lemma safe_version d : X (hd_cache d) -> (hd_cache d < n)%nat -> safe n nd any (h_version d) any2.
Proof.
  intros XC LC. unfold h_version. eapply safe_bind; [apply safe_look|]. intros dl. eapply safe_bind; [apply safe_lift|]. intros x0.
  eapply safe_bind; [apply safe_look|]. intros x. eapply safe_bind; [apply safe_lift|]. intros p. eapply safe_bind; [apply safe_lift|]. intros [[t a0] z].
  eapply safe_bind; [apply safe_True; now apply safe_get|]. intros tr. eapply safe_bind; [apply safe_lift|]. intros root.
  eapply safe_bind; [apply safe_True; now apply safe_get|]. intros cat. eapply safe_bind; [apply safe_lift|]. intros cv.
  eapply safe_bind; [apply safe_lift|]. intros w. apply safe_ret. auto.
Qed.

(* reading cached objects changes nothing *)
Lemma get_quiet h d g k c l : cache_at h (hd_cache d) = Ok c -> pyget c k = Ok (Some l) ->
  exists r, h_get_object d (PRef g k) h = (h, r) /\ forall o, r = Ok o -> cached_val h (Some l) = Ok o.
Proof.
  intros A B. unfold h_get_object, h_last_row, h_fdata. rewrite bind_bind, bind_look.
  destruct (rows_at h (hd_index d)) as [rows| |]; try (eexists; split; [reflexivity | discriminate]). rewrite bind_lift.
  destruct (pyget rows (-1)) as [rl| |]; try (eexists; split; [reflexivity | discriminate]). rewrite bind_look.
  destruct (row_val h rl) as [row| |]; try (eexists; split; [reflexivity | discriminate]). rewrite bind_bind, bind_look.
  destruct (data_at h (hd_data d)) as [data| |]; try (eexists; split; [reflexivity | discriminate]). rewrite bind_bind, bind_lift.
  destruct (pyget data (-1)) as [xl| |]; try (eexists; split; [reflexivity | discriminate]). rewrite bind_bind, bind_look.
  destruct (datum_at h xl) as [x| |]; try (eexists; split; [reflexivity | discriminate]). rewrite bind_lift.
  destruct (of_opt EKeyError (dt_fdata x)) as [p| |]; try (eexists; split; [reflexivity | discriminate]).
  assert (M : exists r, h_memoize row p k (hd_cache d) h = (h, r)).
  { unfold h_memoize. rewrite bind_lift. destruct (pyget row k) as [s| |]; eauto. rewrite bind_lift. destruct (deleted_in s) as [[]| |]; eauto.
    - eexists. reflexivity.
    - rewrite bind_look, A, bind_lift, B. eexists. reflexivity. }
  destruct M as [r M]. rewrite (bind_run _ _ _ _ _ M). destruct r as [u|e|]; try (eexists; split; [reflexivity | discriminate]).
  rewrite bind_look, A, bind_lift, B. unfold look. eexists. split; [reflexivity|]. auto.
Qed.
Lemma safe_version_quiet d c t tr g k l : X = (fun _ => False) -> (hd_cache d < n)%nat -> (t < n)%nat ->
  nth_error h0 (hd_cache d) = Some (CCache c) -> pyget c 0 = Ok (Some t) -> nth_error h0 t = Some (CObj (PDict tr)) ->
  dget K_Root tr = Some (PRef g k) -> pyget c k = Ok (Some l) ->
  safe n nd any (h_version d) any2.
Proof.
  intros EX LC LT E1 E2 E3 E4 E5 h O _ h' r R.
  assert (K : forall l, (l < n)%nat -> nth_error h l = nth_error h0 l).
  { intros j J. destruct (own_old _ _ _ O) as [_ K]. apply K; auto. now rewrite EX. }
  assert (A : cache_at h (hd_cache d) = Ok c) by (unfold cache_at; rewrite (at_ok _ _ (CCache c)); auto; rewrite K; auto).
  assert (T : cached_val h (Some t) = Ok (PDict tr)) by (cbn; unfold obj_val; rewrite (at_ok _ _ (CObj (PDict tr))); auto; rewrite K; auto).
  assert (h' = h).
  { unfold h_version in R. rewrite bind_look in R. destruct (data_at h (hd_data d)) as [dl| |]; try now inversion R.
    rewrite bind_lift in R. destruct (pyget dl 0) as [x0| |]; try now inversion R.
    rewrite bind_look in R. destruct (datum_at h x0) as [x| |]; try now inversion R.
    rewrite bind_lift in R. destruct (of_opt EKeyError (dt_fdata x)) as [p| |]; try now inversion R.
    rewrite bind_lift in R. destruct (read_at p 5 3) as [[[tx a0] z]| |]; try now inversion R.
    destruct (get_quiet h d 0 0 c t A E2) as (r1 & G1 & V1). rewrite (bind_run _ _ _ _ _ G1) in R.
    destruct r1 as [o| |]; try now inversion R. specialize (V1 _ eq_refl). pose proof (eq_trans (eq_sym T) V1) as V3. inversion V3; subst o.
    rewrite bind_lift in R. cbn [item] in R. rewrite E4 in R. cbn [of_opt] in R.
    destruct (get_quiet h d g k c l A E5) as (r2 & G2 & V2). rewrite (bind_run _ _ _ _ _ G2) in R.
    destruct r2 as [o| |]; try now inversion R.
    rewrite bind_lift in R. destruct (cat_version o) as [cv| |]; try now inversion R.
    rewrite bind_lift in R. destruct (ascii _) as [w| |]; now inversion R. }
  subst h'. split; [apply keepn_refl; apply O | auto].
Qed.
End Owned.
End Sharing.

Section Commit.
Context {ZL : Zlib}.

(* ---------------- copy_doc(doc, revision='NEXT') ---------------- *)
Definition copied_next (h : heap) (rows : list loc) (cache : list (option loc)) (data : list loc) (t : obj) (row : list hslot) (x : datum) : heap :=
  h ++ [CRows rows; CCache cache; CData data; CObj t; CRow row; CDatum x].
Lemma copy_next_inv h d v h' r : doc_val h d = Ok v -> copy_next d h = (h', r) ->
  untouched h h' /\ forall nd, r = Ok nd -> nd = copied_doc h /\ exists rows cache cache' data rl rows' xl data' t row x,
    rows_at h (hd_index d) = Ok rows /\ cache_at h (hd_cache d) = Ok cache /\ data_at h (hd_data d) = Ok data /\
    pyget rows (-1) = Ok rl /\ row_at h rl = Ok row /\ pyset rows (-1) (length h + 4)%nat = Ok rows' /\
    pyset cache 0 (Some (length h + 3)%nat) = Ok cache' /\ pyget data (-1) = Ok xl /\ datum_at h xl = Ok x /\
    pyset data (-1) (length h + 5)%nat = Ok data' /\ (exists t0, t = PDict t0) /\ pyget (d_cache v) 0 = Ok t /\
    h' = copied_next h rows' cache' data' t row x.
Proof.
  intros V R. destruct (doc_parts _ _ _ V) as (rows & cache & data & A1 & B1 & A2 & B2 & A3 & B3).
  unfold copy_next in R. rewrite bind_look, A1, bind_alloc, bind_look in R.
  rewrite (cache_mono h _ _ _ (untouched_on _ _ _ (unt_app h _)) A2), bind_alloc, bind_look in R.
  rewrite (dataat_mono h _ _ _ (untouched_on _ _ _ (unt_trans _ _ _ (unt_app h _) (unt_app _ _))) A3), bind_alloc, bind_lift in R.
  rewrite <- !app_assoc in R. cbn [app] in R.
  destruct (rmap_get _ _ _ 0 B2) as [(x0 & t & G1 & G2 & G3)|[G1 G2]]; rewrite G1 in R.
  2:{ inversion R; subst. split; [apply unt_app | discriminate]. }
  rewrite bind_look in R.
  rewrite (cachedv_mono h _ _ _ (untouched_on _ _ _ (unt_app h _)) G3) in R.
  destruct t as [|b|z|zx ze|s|s|g k|l|t0|d0 s0 e0]; try (inversion R; subst; split; [apply unt_app | discriminate]).
  rewrite bind_alloc, bind_lift in R. rewrite <- !app_assoc in R. cbn [app] in R.
  rewrite !app_length in R. cbn [length] in R.
  destruct (pyset_some cache 0 _ (Some (length h + 3 : loc)%nat) G1) as [cache' S1]. rewrite S1 in R.
  rewrite bind_write in R. rewrite lset_app in R. cbn [lset] in R. rewrite bind_lift in R.
  destruct (rmap_get _ _ _ (-1) B1) as [(rl & rv & P1 & P2 & P3)|[P1 P2]]; rewrite P1 in R.
  2:{ inversion R; subst. split; [apply unt_app | discriminate]. }
  destruct (row_parts _ _ _ P3) as (row & Q1 & Q2).
  rewrite bind_look, (row_mono h _ _ _ (untouched_on _ _ _ (unt_app h _)) Q1), bind_alloc, bind_lift in R.
  rewrite <- !app_assoc in R. cbn [app] in R. rewrite !app_length in R. cbn [length] in R.
  destruct (pyset_some rows (-1) _ (length h + 4)%nat P1) as [rows' S2]. rewrite S2, bind_write in R.
  rewrite lset_app0 in R. cbn [lset] in R. rewrite bind_lift in R.
  destruct (rmap_get _ _ _ (-1) B3) as [(xl & x & P4 & P5 & P6)|[P4 P5]]; rewrite P4 in R.
  2:{ inversion R; subst. split; [apply unt_app | discriminate]. }
  rewrite bind_look, (datum_mono h _ _ _ (untouched_on _ _ _ (unt_app h _)) P6), bind_alloc, bind_lift in R.
  rewrite <- !app_assoc in R. cbn [app] in R. rewrite !app_length in R. cbn [length] in R.
  destruct (pyset_some data (-1) _ (length h + 5)%nat P4) as [data' S3]. rewrite S3, bind_write in R.
  rewrite lset_app in R. cbn [lset] in R. inversion R; subst.
  split; [apply unt_app|]. intros nd [= <-]. split; [unfold copied_doc; f_equal; lia|].
  exists rows, cache, cache', data, rl, rows', xl, data', (PDict t0), row, x. unfold copied_next. eauto 20.
Qed.

Lemma rmap_in {A B} (f : A -> res B) l v a : rmap f l = Ok v -> In a l -> exists b, f a = Ok b.
Proof.
  intros R I. apply In_nth_error in I. destruct I as [i I]. pose proof (rmap_nth f l v i R) as N. rewrite I in N.
  destruct N as (b & E & _). eauto.
Qed.

Lemma next_own X h d v nd h' : doc_val h d = Ok v -> no_envelope h d -> copy_next d h = (h', Ok nd) -> own X h (length h) h' nd.
Proof.
  intros V NE R. destruct (copy_next_inv _ _ _ _ _ V R) as (U & W). destruct (W _ eq_refl) as (-> & rows & cache & cache' & data & rl & rows' & xl & data' & t & row & x & A1 & A2 & A3 & P1 & Q1 & S1 & S2 & P2 & P3 & S3 & T & _ & ->).
  clear W. unfold copied_next in *. constructor.
  - rewrite app_length. lia.
  - exists rows'. cbn [copied_doc hd_index]. rewrite nth_app. split; auto. intros y Y. rewrite (pyset_get_last _ _ _ S1) in Y. inversion Y. lia.
  - exists cache'. cbn [copied_doc hd_cache]. rewrite nth_app. split; auto.
    destruct (doc_parts _ _ _ V) as (_ & ca & _ & _ & _ & A2' & B2 & _). rewrite A2 in A2'. inversion A2'; subst ca.
    unfold pyset in S2. destruct (pyidx cache 0) as [i|] eqn:Ei; try discriminate. inversion S2; subst cache'.
    assert (IN : forall l, In (Some l) (lset cache i (Some (length h + 3)%nat)) -> l = (length h + 3)%nat \/ In (Some l) cache).
    { intros l I. apply In_nth_error in I. destruct I as [j J]. destruct (Nat.eq_dec i j) as [->|N].
      - apply pyidx_lt in Ei. rewrite nth_lset_same in J by auto. left. congruence.
      - rewrite nth_lset_other in J by auto. right. eapply nth_error_In; eauto. }
    assert (OLD : forall l, In (Some l) cache -> (l < length h)%nat).
    { intros l I. destruct (rmap_in _ _ _ _ B2 I) as [b Eb]. cbn in Eb. destruct (obj_at_inv _ _ _ Eb) as (cc & N0 & _). apply nth_error_Some. congruence. }
    split; [|split].
    + intros l. unfold pyget. rewrite (pyidx_len cache _ 0 (lset_len _ _ _)), Ei. rewrite nth_lset_same by (eapply pyidx_lt; eauto). cbn. intros [= <-]. lia.
    + intros l I. rewrite app_length. cbn. destruct (IN _ I) as [->|J]; [lia | apply OLD in J; lia].
    + intros l d0 f s e I E. destruct (IN _ I) as [->|J].
      * rewrite nth_app in E. discriminate.
      * exfalso. rewrite nth_error_app1 in E by auto. exact (NE _ _ _ _ _ _ A2 J E).
  - exists data'. cbn [copied_doc hd_data]. rewrite nth_app. split; auto. intros y Y. rewrite (pyset_get_last _ _ _ S3) in Y. inversion Y. lia.
  - split; [rewrite app_length; lia|]. intros l L _. now rewrite nth_error_app1.
  - cbn. lia.
Qed.

Lemma commit_frame h d v h' r : doc_val h d = Ok v -> no_envelope h d -> first_xsn v <> Ok (Some (-1)) -> h_commit d h = (h', r) ->
  only (fun l => l = hd_cache d) h h' /\ (length (d_index v) <> 1%nat \/ catalog_cached v -> untouched h h').
Proof.
  intros V NE NX R. unfold h_commit, h_changes in R. rewrite bind_bind, bind_look, V, bind_lift in R.
  assert (STOP : h' = h -> only (fun l => l = hd_cache d) h h' /\ (length (d_index v) <> 1%nat \/ catalog_cached v -> untouched h h')).
  { intros ->. split; [intros l c E _; exact E | intros _; apply unt_refl]. }
  destruct (changes v) as [chg| |] eqn:EC; try (apply STOP; now inversion R).
  destruct chg as [|c1 chg]; [apply STOP; now inversion R|]. set (CH := c1 :: chg) in *. clearbody CH.
  destruct (doc_parts _ _ _ V) as (rows & cache & data & A1 & B1 & A2 & B2 & A3 & B3).
  rewrite bind_look, A1 in R. pose proof (rmap_len _ _ _ B1) as LR.
  destruct (copy_next d h) as [h1 r1] eqn:CN. rewrite (bind_run _ _ _ _ _ CN) in R.
  destruct (copy_next_inv _ _ _ _ _ V CN) as (U & W).
  assert (STOP1 : h' = h1 -> only (fun l => l = hd_cache d) h h' /\ (length (d_index v) <> 1%nat \/ catalog_cached v -> untouched h h')).
  { intros ->. split; [intros l c E _; now apply U | intros _; exact U]. }
  destruct r1 as [nd| |]; try (apply STOP1; now inversion R).
  rewrite bind_look, (doc_mono _ _ _ _ U V), bind_lift in R.
  destruct (first_xsn v) as [x0| |]; try (apply STOP1; now inversion R).
  assert (NX' : x0 <> Some (-1)) by congruence.
  assert (LC : (hd_cache d < length h)%nat) by (eapply cache_in; eauto).
  split.
  - pose proof (next_own (fun l => l = hd_cache d) h d v nd h1 V NE CN) as O.
    destruct (safe_commit (fun l => l = hd_cache d) h (length h) nd d CH (Z.of_nat (length rows)) x0 (fun _ => safe_version _ _ _ _ d eq_refl LC) NX' h1 O I _ _ R) as (_ & O' & _).
    apply keepn_only. apply O'.
  - intros Q. pose proof (next_own (fun _ => False) h d v nd h1 V NE CN) as O.
    assert (HV : Z.of_nat (length rows) = 1 -> safe (fun _ => False) h (length h) nd (fun _ => True) (h_version d) (fun _ _ => True)).
    { intros E. destruct Q as [Q|(tr & g & k & o & Q1 & Q2 & Q3 & Q4)]; [exfalso; lia|].
      destruct (rmap_get _ _ _ 0 B2) as [(x1 & t & G1 & G2 & G3)|[G1 G2]]; [|congruence].
      rewrite Q1 in G2. inversion G2; subst t.
      destruct x1 as [t|]; [|discriminate]. cbn in G3. unfold obj_val in G3.
      destruct (at_ h t) as [cc| |] eqn:Et; try discriminate. apply at_inv in Et. cbn in G3.
      destruct cc; try discriminate; [|destruct (nums_at h f); discriminate].
      destruct (is_none o0); [discriminate|]. inversion G3; subst o0.
      destruct (rmap_get _ _ _ k B2) as [(x2 & o' & G4 & G5 & G6)|[G4 G5]]; [|congruence].
      rewrite Q3 in G5. inversion G5; subst o'.
      destruct x2 as [l|]; [|cbn in G6; congruence].
      apply (safe_version_quiet (fun _ => False) h (length h) nd d cache t tr g k l); auto.
      - apply nth_error_Some. congruence.
      - now apply cache_at_inv. }
    destruct (safe_commit (fun _ => False) h (length h) nd d CH (Z.of_nat (length rows)) x0 HV NX' h1 O I _ _ R) as (_ & O' & _).
    pose proof (keepn_only _ _ _ (own_old _ _ _ _ _ O')) as K. intros l c E. apply K; auto.
Qed.
End Commit.

(* ---------------- force_xref_stream ---------------- *)
Section Force.
Context {ZL : Zlib}.

(* a new document that shares the objects of d *)
Definition newdoc (h : heap) (c : list (option loc)) (row : list hslot) (h' : heap) (nd : hdoc) : Prop :=
  exists h0 rows' c' data row', untouched h h0 /\ nd = copied_doc h0 /\ h' = copied h0 rows' c' data row' /\
    pyget rows' (-1) = Ok (length h0 + 3)%nat /\ (exists w, doc_val h' nd = Ok w) /\
    (forall l, In (HAt l) row' -> (l < length h)%nat -> In (HAt l) row) /\ forall l, pyget c' 0 = Ok (Some l) -> pyget c 0 = Ok (Some l).

Lemma same_newdoc h d v c h' r : doc_val h d = Ok v -> cache_at h (hd_cache d) = Ok c -> copy_same d h = (h', r) ->
  untouched h h' /\ forall nd, r = Ok nd -> exists row, last_cells h d = Ok row /\ newdoc h c row h' nd.
Proof.
  intros V A2 R. destruct (doc_parts _ _ _ V) as (rows & cache & data & A1 & B1 & A2' & B2 & A3 & B3).
  rewrite A2 in A2'. inversion A2'; subst cache. clear A2'.
  destruct (rmap_get _ _ _ (-1) B1) as [(rl & rv & P1 & P2 & P3)|[P1 P2]].
  - destruct (row_parts _ _ _ P3) as (row & Q1 & Q2).
    destruct (pyset_some rows (-1) _ (length h + 3)%nat P1) as [rows' S1].
    rewrite (copy_same_run _ _ _ _ _ _ _ _ A1 A2 A3 P1 Q1 S1) in R. inversion R; subst.
    split; [apply copied_unt|]. intros nd [= <-]. exists row. split; [unfold last_cells; now rewrite A1; cbn [bind]; rewrite P1|].
    exists h, rows', c, data, row. split; [apply unt_refl|].
    split; auto. split; auto. split; [now apply (pyset_get_last _ _ _ S1)|]. split; [|auto].
    destruct (pyset_some (d_index v) (-1) _ rv P2) as [idx' S5].
    eexists. exact (copied_val h rows rows' c data row (d_index v) idx' (d_cache v) (d_data v) rv S1 S5 B1 Q2 B2 B3).
  - unfold copy_same in R. rewrite bind_look, A1, bind_alloc, bind_look in R.
    rewrite (cache_mono h _ _ _ (untouched_on _ _ _ (unt_app h _)) A2), bind_alloc, bind_look in R.
    rewrite (dataat_mono h _ _ _ (untouched_on _ _ _ (unt_trans _ _ _ (unt_app h _) (unt_app _ _))) A3), bind_alloc, bind_lift, P1 in R.
    inversion R; subst. split; [do 3 apply unt_alloc; apply unt_refl | discriminate].
Qed.

Lemma pyget0_app {A} (c : list A) k x c' y : (0 < k)%nat -> pyset (c ++ [x]) (Z.of_nat k) y = Ok c' -> pyget c' 0 = pyget c 0 \/ c = [].
Proof.
  intros K. destruct c as [|a c]; auto. unfold pyset. intros P. left.
  destruct (pyidx ((a :: c) ++ [x]) (Z.of_nat k)) as [i|] eqn:E; [|discriminate]. inversion P; subst.
  unfold pyidx in E. cbv zeta in E. destruct ((0 <=? Z.of_nat k) && _) eqn:EB in E.
  - injection E as <-. rewrite Nat2Z.id. destruct k as [|k]; [lia|]. reflexivity.
  - destruct ((_ <=? Z.of_nat k) && (_ <? 0)) eqn:EK in E; [lia | discriminate].
Qed.

Lemma add_newdoc h d v c o x rv h' r : doc_val h d = Ok v -> cache_at h (hd_cache d) = Ok c -> cached_val h x = Ok o ->
  last_row v = Ok rv -> rv <> [] -> c <> [] -> h_add_object d x h = (h', r) ->
  untouched h h' /\ forall nd n, r = Ok (nd, n) -> exists row, last_cells h d = Ok row /\ newdoc h c row h' nd.
Proof.
  intros V A2 Hx LR NE NC R. destruct (add_run _ _ _ _ _ V Hx _ _ R) as (_ & AR). destruct (doc_parts _ _ _ V) as (rows & cache & data & A1 & B1 & A2' & B2 & A3 & B3).
  rewrite A2 in A2'. inversion A2'; subst cache. clear A2'.
  unfold h_add_object in R. rewrite bind_look, A1, bind_lift in R.
  unfold last_row in LR.
  destruct (rmap_get _ _ _ (-1) B1) as [(rl & rv' & P1 & P2 & P3)|[P1 P2]]; [|congruence].
  rewrite P1 in R. rewrite P2 in LR. inversion LR; subst rv'. clear LR.
  destruct (row_parts _ _ _ P3) as (row & Q1 & Q2). rewrite bind_look, Q1, bind_alloc in R. cbn [bind].
  assert (LN : (0 < length row)%nat) by (rewrite <- (rmap_len _ _ _ Q2); destruct rv; [congruence | cbn; lia]).
  set (en := with_dver _ _) in *.
  set (h0 := h ++ [CEnt en]) in R.
  assert (U0 : untouched h h0) by apply unt_app.
  destruct (pyset_some rows (-1) _ (length h0 + 3)%nat P1) as [rows' S1].
  rewrite (bind_run _ _ _ _ _ (copy_same_run h0 d rows c data rl row rows' (rows_mono _ _ _ _ (untouched_on _ _ _ U0) A1)
     (cache_mono _ _ _ _ (untouched_on _ _ _ U0) A2) (dataat_mono _ _ _ _ (untouched_on _ _ _ U0) A3) P1 (row_mono _ _ _ _ (untouched_on _ _ _ U0) Q1) S1)) in R.
  unfold h_last_row in R. rewrite bind_bind in R. cbn [copied_doc hd_index hd_cache hd_data] in R. rewrite bind_look, copied_rows, bind_lift, (pyset_get_last _ _ _ S1) in R.
  rewrite bind_look, copied_row, bind_write, copied_set3, bind_look, copied_cache, bind_write, copied_set1 in R.
  unfold put_cache in R. rewrite bind_bind, bind_look, copied_cache, bind_bind, bind_lift in R.
  destruct (pyset (c ++ [None]) (Z.of_nat (length row)) x) as [c'|e|] eqn:S6;
    try (inversion R; subst; split; [eapply unt_trans; [exact U0 | apply copied_unt] | discriminate]).
  rewrite bind_write, copied_set1 in R. unfold hret in R. inversion R; subst.
  split; [eapply unt_trans; [exact U0 | apply copied_unt]|].
  intros nd n [= <- _]. exists row. split; [unfold last_cells; now rewrite A1; cbn [bind]; rewrite P1|].
  exists h0, rows', c', data, (row ++ [HAt (length h)]). split; auto. split; auto. split; auto.
  split; [now apply (pyset_get_last _ _ _ S1)|]. split.
  { destruct (add_object v o) as [[v' i]| |]; [|discriminate AR|discriminate AR]. destruct AR as (nd & AR & AV & _).
    inversion AR; subst. eauto. }
  split. { intros l I LL. apply in_app_or in I. destruct I as [I|[I|[]]]; auto. inversion I; subst. lia. }
  intros l. destruct (pyget0_app _ _ _ _ _ LN S6) as [->|]; [auto | contradiction].
Qed.

Lemma copy_slot_unt sl h h' r : copy_slot sl h = (h', r) -> untouched h h' /\ forall l, r = Ok (HAt l) -> (length h <= l)%nat.
Proof.
  destruct sl as [|l]; cbn [copy_slot]; [intros H; inversion H; subst; split; [apply unt_refl | discriminate]|].
  rewrite bind_read. destruct (nth_error h l) as [c|]; [|intros H; inversion H; subst; split; [apply unt_refl | discriminate]].
  destruct c as [rows|row|e|ls|c|o|d0 f s e|ns|da|dt]; try (intros H; inversion H; subst; split; [apply unt_refl | discriminate]).
  - rewrite bind_alloc. intros H; inversion H; subst. split; [apply unt_app|]. intros k [= <-]. lia.
  - match goal with |- (?g ls [] h = _) -> _ => set (go := g) end.
    assert (G : forall ls acc h1, untouched h h1 -> forall h' r, go ls acc h1 = (h', r) -> untouched h h' /\ forall l, r = Ok (HAt l) -> (length h <= l)%nat).
    { clear. intros ls. induction ls as [|x ls IH]; intros acc h1 U h' r; cbn [go]; change (go) with go.
      - unfold go. rewrite bind_alloc. intros H; inversion H; subst. split; [now apply unt_alloc|]. intros k [= <-]. now apply unt_len.
      - unfold go at 1. fold go. rewrite bind_look. destruct (ent_at h1 x) as [en| |]; try (intros H; inversion H; subst; split; [auto | discriminate]).
        rewrite bind_alloc. apply IH. now apply unt_alloc. }
    apply G. apply unt_refl.
Qed.

(* the part of force_xref_stream that follows the copy writes only the shared trailer *)
Lemma filter_frame n h nd filt c t h' r : keepn (fun l => l = t) n h h -> cache_at h (hd_cache nd) = Ok c ->
  (forall l, pyget c 0 = Ok (Some l) -> l = t) -> set_filter nd filt h = (h', r) ->
  (filt = [] -> h' = h) /\ keepn (fun l => l = t) n h h' /\
  (h' = h \/ exists tr, nth_error h t = Some (CObj (PDict tr)) /\ h' = lset h t (CObj (PDict (dset K_Filter' (PStr filt) tr)))).
Proof.
  intros K A2 T R. unfold set_filter in R. destruct filt as [|b filt]; [inversion R; subst; auto|].
  split; [discriminate|]. set (fl := b :: filt) in *. clearbody fl.
  rewrite bind_look, A2, bind_lift in R. destruct (pyget c 0) as [x| |]; try (inversion R; subst; now auto).
  rewrite bind_lift in R. destruct x as [l|]; [|inversion R; subst; now auto]. cbn [of_opt] in R.
  specialize (T _ eq_refl). subst l. rewrite bind_look in R.
  destruct (obj_val h t) as [o| |] eqn:EO; try (inversion R; subst; now auto).
  destruct o as [| | | | | | | |tr|]; try (inversion R; subst; now auto).
  inversion R; subst. split.
  - destruct K as [K _]. split; [now rewrite lset_len|]. intros l L N. rewrite nth_lset_other; auto.
  - right. exists tr. split; auto. unfold obj_val in EO. destruct (at_ h t) as [cc| |] eqn:Et; try discriminate. apply at_inv in Et.
    cbn in EO. destruct cc; try discriminate; [|destruct (nums_at h f); discriminate]. destruct (is_none o); [discriminate|]. congruence.
Qed.

Lemma only_keep t h h' : keepn (fun l => l = t) (length h) h h' -> only (fun l => l = t) h h'.
Proof. apply keepn_only. Qed.

(* what the whole function does to the cells that existed *)
Definition filtered (t : loc) (filt : bytes) (h h' : heap) : Prop :=
  untouched h h' \/ (filt <> [] /\ only (fun l => l = t) h h' /\
    exists tr, nth_error h t = Some (CObj (PDict tr)) /\ nth_error h' t = Some (CObj (PDict (dset K_Filter' (PStr filt) tr)))).

Lemma set_filter_filtered h h1 nd filt c t h' r : untouched h h1 -> (t < length h)%nat -> cache_at h1 (hd_cache nd) = Ok c ->
  (forall l, pyget c 0 = Ok (Some l) -> l = t) -> set_filter nd filt h1 = (h', r) -> filtered t filt h h'.
Proof.
  intros U LT A2 T R. pose proof (unt_len _ _ U) as L.
  destruct (filter_frame (length h1) h1 nd filt c t h' r (keepn_refl _ _ _ (le_n _)) A2 T R) as (F1 & F2 & [->|(tr & F3 & ->)]); [now left|].
  destruct filt as [|b filt]; [left; now rewrite (F1 eq_refl)|]. right. split; [discriminate|]. split.
  - intros l cc E N. rewrite nth_lset_other by auto. now apply U.
  - exists tr. split.
    + destruct (nth_error h t) as [cc|] eqn:E; [|apply nth_error_None in E; lia]. rewrite (U _ _ E) in F3. congruence.
    + rewrite nth_lset_same; auto. apply nth_error_Some. congruence.
Qed.

Lemma force_frame h d v p filt c t h' r : doc_val h d = Ok v -> cache_at h (hd_cache d) = Ok c -> pyget c 0 = Ok (Some t) ->
  h_force_xref_stream d p filt h = (h', r) -> filtered t filt h h'.
Proof.
  intros V A2 PT R. destruct (doc_parts _ _ _ V) as (rows & cache & data & A1 & B1 & A2' & B2 & A3 & B3).
  rewrite A2 in A2'. inversion A2'; subst cache. clear A2'.
  assert (LT : (t < length h)%nat).
  { destruct (rmap_get _ _ _ 0 B2) as [(a & b & G1 & G2 & G3)|[G1 G2]]; [|congruence]. rewrite PT in G1. inversion G1; subst a.
    destruct (obj_at_inv _ _ _ G3) as (cc & N0 & _). apply nth_error_Some. congruence. }
  unfold h_force_xref_stream, h_last_row in R. rewrite bind_bind, bind_look, A1, bind_lift in R.
  destruct (rmap_get _ _ _ (-1) B1) as [(rl & rv & P1 & P2 & P3)|[P1 P2]]; rewrite P1 in R; [|inversion R; subst; left; apply unt_refl].
  rewrite bind_look, P3, bind_lift in R.
  destruct (pyget rv 0) as [s| |] eqn:ES; try (inversion R; subst; left; apply unt_refl).
  assert (NR : rv <> []) by (intros ->; discriminate). assert (NC : c <> []) by (intros ->; discriminate).
  rewrite bind_lift in R.
  match type of R with (match ?X with _ => _ end = _) => destruct X as [has| |] end; try (inversion R; subst; left; apply unt_refl).
  rewrite bind_look, A2, bind_lift, PT, bind_look in R.
  destruct (cached_val h (Some t)) as [o| |]; try (inversion R; subst; left; apply unt_refl). rewrite bind_lift in R.
  destruct (dict_of o) as [tr| |]; try (inversion R; subst; left; apply unt_refl).
  destruct has.
  - cbv zeta in R.
    assert (GO : hbind (copy_same d) (fun nd => hbind (set_filter nd filt) (fun _ => hret nd)) h = (h', r) -> filtered t filt h h').
    { intros G. destruct (copy_same d h) as [h1 r1] eqn:CS. destruct (same_newdoc _ _ _ _ _ _ V A2 CS) as (U & W).
      rewrite (bind_run _ _ _ _ _ CS) in G. destruct r1 as [nd| |]; try (inversion G; subst; now left).
      destruct (W _ eq_refl) as (row0 & _ & h0 & rows' & c' & data' & row' & U0 & -> & -> & _ & _ & _ & T).
      destruct (set_filter (copied_doc h0) filt (copied h0 rows' c' data' row')) as [h2 r2] eqn:SF.
      rewrite (bind_run _ _ _ _ _ SF) in G.
      assert (filtered t filt h h2).
      { refine (set_filter_filtered _ _ _ _ c' _ _ _ U LT _ _ SF); [apply copied_cache|]. intros l El. apply T in El. congruence. }
      destruct r2; inversion G; now subst. }
    destruct (dget K_Filter' tr) as [[]|]; auto. destruct (beqb s0 filt); [inversion R; subst; left; apply unt_refl | auto].
  - match type of R with hbind ?M _ _ = _ => set (m := M) in R end.
    assert (M : forall h1 r1, m h = (h1, r1) -> untouched h h1 /\ forall nd n, r1 = Ok (nd, n) -> exists row, newdoc h c row h1 nd).
    { intros h1 r1. unfold m. destruct p.
      - rewrite bind_alloc. set (hx := h ++ [CObj (PDict [])]). intros AD.
        assert (Ux : untouched h hx) by apply unt_app.
        destruct (add_newdoc hx d v c (PDict []) (Some (length h)) rv h1 r1) as (U & W); auto.
        + now apply (doc_mono h).
        + apply (cache_mono h); auto. now apply untouched_on.
        + cbn. unfold obj_val. rewrite (at_ok _ _ (CObj (PDict []))); auto. apply nth_app_new.
        + split; [eapply unt_trans; eauto|]. intros nd n E. destruct (W _ _ E) as (row0 & _ & h0 & rows' & c' & data' & row' & U0 & W1 & W2 & W3 & W4 & W5 & W6).
          exists row0, h0, rows', c', data', row'. split; [eapply unt_trans; eauto|]. repeat (split; auto). intros l I LL. apply W5; auto. pose proof (unt_len _ _ Ux). lia.
      - destruct (copy_same d h) as [h2 r2] eqn:CS. destruct (same_newdoc _ _ _ _ _ _ V A2 CS) as (U & W).
        rewrite (bind_run _ _ _ _ _ CS). intros E. destruct r2 as [nd| |]; inversion E; subst; split; auto; try discriminate.
        intros nd' n [= <- _]. destruct (W _ eq_refl) as (row0 & _ & N). eauto. }
    destruct (m h) as [h1 r1] eqn:EM. destruct (M _ _ eq_refl) as (U & W). clear M. rewrite (bind_run _ _ _ _ _ EM) in R. clear EM m.
    destruct r1 as [[nd n]| |]; try (inversion R; subst; now left).
    destruct (W _ _ eq_refl) as (row0 & h0 & rows' & c' & data' & row' & U0 & -> & -> & LR & _ & _ & T). clear W.
    pose proof (unt_len _ _ U0) as L0.
    rewrite bind_bind, bind_look in R. cbn [copied_doc hd_index] in R. rewrite copied_rows, bind_lift, LR, bind_look, copied_row, bind_lift in R.
    destruct (pyget row' 0) as [s0| |]; try (inversion R; subst; now left).
    destruct (copy_slot s0 (copied h0 rows' c' data' row')) as [h2 r2] eqn:CS. destruct (copy_slot_unt _ _ _ _ CS) as (U2 & F2).
    rewrite (bind_run _ _ _ _ _ CS) in R. pose proof (unt_trans _ _ _ U U2) as U3.
    destruct r2 as [s1| |]; try (inversion R; subst; now left).
    unfold put_slot in R. rewrite bind_bind, bind_look in R.
    rewrite (row_mono _ _ _ _ (untouched_on _ _ _ U2) (copied_row h0 rows' c' data' row')), bind_bind, bind_lift in R.
    destruct (pyset row' 0 s1) as [row2| |]; try (inversion R; subst; now left).
    rewrite bind_write in R. set (h3 := lset h2 (length h0 + 3) (CRow row2)) in R.
    assert (U4 : untouched h h3) by (apply unt_set; [exact U3 | lia]).
    assert (C3 : cache_at h3 (length h0 + 1)%nat = Ok c').
    { pose proof (cache_mono _ _ _ _ (untouched_on _ _ _ U2) (copied_cache h0 rows' c' data' row')) as C2.
      unfold cache_at in *. destruct (at_ h2 (length h0 + 1)%nat) as [cc| |] eqn:Ec; try discriminate. apply at_inv in Ec.
      rewrite (at_ok _ _ cc); auto. unfold h3. rewrite nth_lset_other; auto. lia. }
    unfold change_ent in R. destruct s1 as [|l1]; [rewrite bind_lift in R; inversion R; subst; now left|].
    specialize (F2 _ eq_refl). unfold copied in F2. rewrite app_length in F2. cbn [length] in F2.
    rewrite bind_bind, bind_read in R. destruct (nth_error h3 l1) as [cc|] eqn:E1; [|inversion R; subst; now left].
    destruct cc; try (rewrite bind_lift in R; inversion R; subst; now left).
    rewrite bind_write in R. set (h4 := lset h3 l1 _) in R.
    assert (U5 : untouched h h4) by (apply unt_set; [exact U4 | lia]).
    assert (C4 : cache_at h4 (length h0 + 1)%nat = Ok c').
    { unfold cache_at in *. destruct (at_ h3 (length h0 + 1)%nat) as [cc| |] eqn:Ec; try discriminate. apply at_inv in Ec.
      rewrite (at_ok _ _ cc); auto. unfold h4. rewrite nth_lset_other; auto. lia. }
    destruct (set_filter (copied_doc h0) filt h4) as [h5 r5] eqn:SF. rewrite (bind_run _ _ _ _ _ SF) in R.
    assert (filtered t filt h h5).
    { refine (set_filter_filtered _ _ _ _ c' _ _ _ U5 LT _ _ SF); [exact C4|]. intros l El. apply T in El. congruence. }
    destruct r5; inversion R; now subst.
Qed.

(* the input reads as before, but for the /Filter of its trailer *)
Lemma filtered_val h d v filt c t h' : doc_val h d = Ok v -> cache_at h (hd_cache d) = Ok (Some t :: c) -> ~ In (Some t) c ->
  filtered t filt h h' -> doc_val h' d = Ok v \/
  exists tr cv, d_cache v = PDict tr :: cv /\ doc_val h' d = Ok (mk_doc (d_index v) (PDict (dset K_Filter' (PStr filt) tr) :: cv) (d_data v)).
Proof.
  intros V A2 NI [U|(_ & O & tr & E1 & E2)]; [left; eapply doc_mono; eauto|]. right.
  destruct (doc_parts _ _ _ V) as (rows & cache & data & A1 & B1 & A2' & B2 & A3 & B3).
  rewrite A2 in A2'. inversion A2'; subst cache. clear A2'.
  assert (AG : forall T : cell -> Prop, (forall o, ~ T (CObj o)) -> agree_on T h h').
  { intros T N l x E Tx. apply O; auto. intros ->. rewrite E1 in E. inversion E; subst. now apply (N (PDict tr)). }
  cbn [rmap] in B2. cbn [cached_val] in B2. unfold obj_val in B2 at 1. rewrite (at_ok _ _ _ E1) in B2. cbn [bind is_none] in B2.
  destruct (rmap (cached_val h) c) as [cv| |] eqn:EC; try discriminate. cbn [bind] in B2. inversion B2 as [B2'].
  exists tr, cv. split; auto. apply doc_val_ok.
  - apply (indexv_mono h); try (apply AG; intros o F; exact F). now destruct (doc_val_inv _ _ _ V).
  - unfold cache_val. rewrite (cache_mono h h' _ _ (AG _ (fun o F => F)) A2). cbn [bind rmap cached_val].
    unfold obj_val at 1. rewrite (at_ok _ _ _ E2). cbn [bind is_none].
    assert (R' : rmap (cached_val h') c = Ok cv).
    { refine (rmap_ext _ _ _ _ _ EC). intros a b I Ha. destruct a as [l|]; auto. cbn in *.
      assert (l <> t) by (intros ->; contradiction).
      unfold obj_val in *. destruct (at_ h l) as [cc| |] eqn:El; try discriminate. apply at_inv in El.
      rewrite (at_ok _ _ _ (O _ _ El H)). cbn in *. destruct cc; auto.
      destruct (nums_at h f) as [w| |] eqn:Ew; try discriminate.
      assert (nums_at h' f = Ok w).
      { apply nums_at_inv in Ew. unfold nums_at. rewrite (at_ok _ _ (CNums w)); auto. apply O; auto. intros ->. rewrite Ew in E1. discriminate. }
      rewrite H0. exact Ha. }
    rewrite R'. reflexivity.
  - apply (datav_mono h); [apply AG; intros o F; exact F|]. now destruct (doc_val_inv _ _ _ V) as (_ & _ & ?).
Qed.
End Force.

(* ---------------- group_obj_into_stream ---------------- *)
Lemma rmap_rel {A B} (R : B -> B -> Prop) (f g : A -> res B) l : forall v, rmap f l = Ok v ->
  (forall a b, In a l -> f a = Ok b -> exists b', g a = Ok b' /\ R b b') -> exists v', rmap g l = Ok v' /\ Forall2 R v v'.
Proof.
  induction l as [|a l IH]; cbn [rmap]; intros v E H.
  - inversion E; subst. exists []. auto.
  - destruct (f a) as [b| |] eqn:Ea; try discriminate. cbn in E. destruct (rmap f l) as [w| |]; try discriminate. cbn in E. inversion E; subst v.
    destruct (H a b (or_introl eq_refl) Ea) as (b' & G & Rb). rewrite G. cbn.
    destruct (IH _ eq_refl (fun x y I => H x y (or_intror I))) as (w' & -> & Rw). cbn. eauto.
Qed.

Section Group.
Context {ZL : Zlib}.

(* the cells that existed are the same, but for the env_num of entries at P *)
Definition tagged (P : loc -> Prop) (h h' : heap) : Prop := forall l c, nth_error h l = Some c ->
  nth_error h' l = Some c \/ P l /\ exists e e', c = CEnt e /\ nth_error h' l = Some (CEnt e') /\ ent_but_env e e'.

Lemma tagged_unt P h h' : untouched h h' -> tagged P h h'. Proof. intros U l c E. left. auto. Qed.
Lemma tagged_trans P h1 h2 h3 : tagged P h1 h2 -> untouched h2 h3 -> tagged P h1 h3.
Proof. intros A U l c E. destruct (A _ _ E) as [F|(p & e & e' & -> & F & G)]; eauto 10. Qed.
Lemma tagged_cache P h h1 h2 cl : tagged P h h1 -> cstep cl h1 h2 -> (length h <= cl)%nat -> tagged P h h2.
Proof.
  intros A (O & _ & _) L l c E. assert (l < length h)%nat by (apply nth_error_Some; congruence).
  destruct (A _ _ E) as [F|(p & e & e' & -> & F & G)]; [left | right; split; auto; exists e, e'; repeat split; auto]; apply O; auto; lia.
Qed.
Lemma tagged_ent P h h1 l e e' : tagged P h h1 -> nth_error h1 l = Some (CEnt e) -> ent_but_env e e' -> ((l < length h)%nat -> P l) ->
  tagged P h (lset h1 l (CEnt e')).
Proof.
  intros A E S HP k c Ek. assert (k < length h)%nat by (apply nth_error_Some; congruence).
  destruct (Nat.eq_dec l k) as [->|N].
  - rewrite nth_lset_same by (apply nth_error_Some; congruence). right. split; auto.
    destruct (A _ _ Ek) as [F|(p & e1 & e2 & -> & F & G)]; rewrite E in F; inversion F; subst.
    + exists e, e'. auto.
    + exists e1, e'. split; auto. split; auto. unfold ent_but_env in *. congruence.
  - rewrite nth_lset_other by auto. auto.
Qed.

Lemma tagged_entat P h h' l e : tagged P h h' -> ent_at h l = Ok e -> exists e', ent_at h' l = Ok e' /\ ent_but_env e e'.
Proof.
  intros T E. unfold ent_at in *. destruct (at_ h l) as [c| |] eqn:El; try discriminate. apply at_inv in El. cbn in E.
  destruct c; try discriminate. inversion E; subst. destruct (T _ _ El) as [F|(_ & e1 & e2 & F0 & F & G)].
  - rewrite (at_ok _ _ _ F). exists e. split; auto. reflexivity.
  - inversion F0; subst. rewrite (at_ok _ _ _ F). exists e2. split; auto.
Qed.
Lemma tagged_slot P h h' s v : tagged P h h' -> slot_val h s = Ok v -> exists v', slot_val h' s = Ok v' /\ slot_but_env v v'.
Proof.
  intros T E. destruct s as [|l]; cbn [slot_val] in *; [inversion E; subst; exists SNone; split; reflexivity|].
  destruct (at_ h l) as [c| |] eqn:El; try discriminate. apply at_inv in El. cbn in E.
  destruct c; try discriminate.
  - inversion E; subst. destruct (T _ _ El) as [F|(_ & e1 & e2 & F0 & F & G)]; rewrite (at_ok _ _ _ F); cbn.
    + exists (SDict e). split; reflexivity.
    + inversion F0; subst. exists (SDict e2). split; auto.
  - destruct (rmap (ent_at h) l0) as [es| |] eqn:Er; try discriminate. inversion E; subst.
    destruct (T _ _ El) as [F|(_ & e1 & e2 & F0 & _)]; [|discriminate]. rewrite (at_ok _ _ _ F). cbn.
    destruct (rmap_rel ent_but_env _ (ent_at h') _ _ Er) as (es' & -> & R).
    { intros a b _. now apply (tagged_entat P). }
    cbn. exists (SList (map SDict es')). split; auto. cbn. clear - R. induction R; cbn; constructor; auto.
Qed.
Lemma tagged_on P h h' (T : cell -> Prop) : tagged P h h' -> (forall e, ~ T (CEnt e)) -> agree_on T h h'.
Proof. intros A N l c E Tc. destruct (A _ _ E) as [F|(_ & e & e' & -> & _)]; auto. now apply N in Tc. Qed.

Lemma tagged_doc P h h' d v : tagged P h h' -> doc_val h d = Ok v -> exists v', doc_val h' d = Ok v' /\ but_env v v'.
Proof.
  intros T V. destruct (doc_parts _ _ _ V) as (rows & cache & data & A1 & B1 & A2 & B2 & A3 & B3).
  destruct (rmap_rel (Forall2 slot_but_env) _ (row_val h') _ _ B1) as (i' & R1 & F1).
  { intros a b _ Ha. destruct (row_parts _ _ _ Ha) as (row & Q1 & Q2).
    destruct (rmap_rel slot_but_env _ (slot_val h') _ _ Q2) as (b' & R & F).
    { intros s sv _. now apply (tagged_slot P). }
    exists b'. split; auto. unfold row_val. apply row_at_inv in Q1. destruct (T _ _ Q1) as [G|(_ & e & e' & G & _)]; [|discriminate].
    unfold row_at. rewrite (at_ok _ _ _ G). exact R. }
  exists (mk_doc i' (d_cache v) (d_data v)). split; [|split; auto]. apply doc_val_ok.
  - unfold index_val. rewrite (rows_mono h h' _ _ (tagged_on _ _ _ _ T (fun e F => F)) A1). exact R1.
  - apply (cachev_mono h); try (apply (tagged_on P); auto; intros e F; exact F). now destruct (doc_val_inv _ _ _ V) as (_ & ? & _).
  - apply (datav_mono h); [apply (tagged_on P); auto; intros e F; exact F|]. now destruct (doc_val_inv _ _ _ V) as (_ & _ & ?).
Qed.

Lemma tag_env_frame (P : loc -> Prop) (hb : heap) nd env rows rl row : pyget rows (-1) = Ok rl -> (forall l, In (HAt l) row -> (l < length hb)%nat -> P l) ->
  (length hb <= hd_cache nd)%nat -> forall l h w, doc_val h nd = Ok w -> rows_at h (hd_index nd) = Ok rows -> row_at h rl = Ok row -> tagged P hb h ->
  forall h' r, h_tag_env nd env l h = (h', r) -> tagged P hb h'.
Proof.
  intros PR HP LC. induction l as [|o l IH]; intros h w V A1 Q1 T h' r R; cbn [h_tag_env] in R; [inversion R; now subst|].
  unfold h_last_row in R. rewrite bind_bind, bind_look, A1, bind_lift, PR, bind_look, Q1, bind_lift in R.
  destruct (pyget row o) as [sl| |] eqn:ES; try (inversion R; now subst). rewrite bind_look in R.
  destruct (slot_val h sl) as [s| |] eqn:EV; try (inversion R; now subst). rewrite bind_lift in R.
  destruct (as_dict s) as [e| |]; try (inversion R; now subst).
  destruct (h_get_object nd (PRef (n_gen e) o) h) as [h1 r1] eqn:G. destruct (get_run _ _ _ _ V _ _ G) as (C & W). rewrite (bind_run _ _ _ _ _ G) in R.
  assert (T1 : tagged P hb h1) by (eapply tagged_cache; eauto).
  destruct r1 as [x| |]; try (inversion R; now subst).
  assert (A1' : rows_at h1 (hd_index nd) = Ok rows) by (apply (rows_mono h); auto; apply (cstep_on _ _ _ _ C); intros c F; exact F).
  assert (Q1' : row_at h1 rl = Ok row) by (apply (row_mono h); auto; apply (cstep_on _ _ _ _ C); intros c F; exact F).
  assert (V1 : exists w1, doc_val h1 nd = Ok w1).
  { destruct (get_object w (PRef (n_gen e) o)) as [[y w1]| |]; [|discriminate W|discriminate W]. destruct W as (_ & W). eauto. }
  destruct V1 as [w1 V1]. pose proof (fun h' r => IH h1 w1 V1 A1' Q1' T1 h' r) as IH1.
  assert (CH : hbind (change_ent sl (with_env (Some env))) (fun _ => h_tag_env nd env l) h1 = (h', r) -> tagged P hb h').
  { intros R'. unfold change_ent in R'. destruct sl as [|k]; [rewrite bind_lift in R'; inversion R'; now subst|].
    rewrite bind_bind, bind_read in R'. destruct (nth_error h1 k) as [cc|] eqn:Ek; [|inversion R'; now subst].
    destruct cc as [| |en| | | | | | |]; try (rewrite bind_lift in R'; inversion R'; now subst). rewrite bind_write in R'.
    assert (I : In (HAt k) row).
    { unfold pyget in ES. destruct (pyidx row o); [|discriminate]. destruct (nth_error row n) eqn:N; [|discriminate]. cbn in ES. inversion ES; subst. eapply nth_error_In; eauto. }
    set (h2 := lset h1 k _) in R'.
    assert (T2 : tagged (fun _ => True) h1 h2) by (apply (tagged_ent _ _ _ _ en); auto; [apply tagged_unt, unt_refl | reflexivity]).
    destruct (tagged_doc _ _ _ _ _ T2 V1) as (w2 & V2 & _).
    refine (IH h2 w2 V2 _ _ _ _ _ R').
    - apply (rows_mono h1); auto. apply (tagged_on _ _ _ _ T2). intros e0 F; exact F.
    - apply row_at_inv in Q1'. destruct (T2 _ _ Q1') as [F|(_ & e1 & e2 & F & _)]; [|discriminate]. unfold row_at. now rewrite (at_ok _ _ _ F).
    - apply (tagged_ent _ _ _ _ en); auto. reflexivity. }
  destruct x; auto; try (destruct (negb (n_gen e =? 0)); eauto; fail); eauto.
  destruct (dhas K_noslash_Length d); eauto. destruct (negb (n_gen e =? 0)); eauto.
Qed.

Lemma put_frame P (hb : heap) cl k x h h' r : tagged P hb h -> (length hb <= cl)%nat -> put_cache cl k x h = (h', r) -> tagged P hb h'.
Proof.
  intros T L R. destruct (put_cases _ _ _ _ _ _ R) as [->|(c & c' & E & ->)]; auto.
  eapply tagged_cache; eauto. eapply cstep_set. unfold cache_at. rewrite (at_ok _ _ _ E). reflexivity.
Qed.

Lemma group_frame h d v env nums h' r : doc_val h d = Ok v -> (forall rv, last_row v = Ok rv -> rv <> []) -> d_cache v <> [] ->
  h_group d env nums h = (h', r) -> forall row, last_cells h d = Ok row -> tagged (fun l => In (HAt l) row) h h'.
Proof.
  intros V NR NC R row0 LC0. destruct (doc_parts _ _ _ V) as (rows & c & data & A1 & B1 & A2 & B2 & A3 & B3).
  assert (NC' : c <> []) by (intros ->; cbn in B2; inversion B2; congruence).
  unfold h_group in R. match type of R with hbind ?M _ _ = _ => set (m := M) in R end.
  assert (M : forall h1 r1, m h = (h1, r1) -> untouched h h1 /\ forall nd n, r1 = Ok (nd, n) -> newdoc h c row0 h1 nd).
  { intros h1 r1. unfold m. destruct (truthy env).
    - rewrite bind_lift. destruct (of_opt ETypeError env) as [z| |]; try (intros E; inversion E; subst; split; [apply unt_refl | discriminate]).
      destruct (copy_same d h) as [h2 r2] eqn:CS. destruct (same_newdoc _ _ _ _ _ _ V A2 CS) as (U & W).
      rewrite (bind_run _ _ _ _ _ CS). intros E. destruct r2 as [nd| |]; inversion E; subst; split; auto; try discriminate.
      intros nd' n [= <- _]. destruct (W _ eq_refl) as (row & L & N). rewrite LC0 in L. inversion L; now subst.
    - rewrite bind_alloc. set (hx := h ++ [CObj (PBytes [])]). intros AD.
      assert (Ux : untouched h hx) by apply unt_app.
      assert (LL : exists rv, last_row v = Ok rv).
      { unfold last_row. destruct (rmap_get _ _ _ (-1) B1) as [(rl & rv & P1 & P2 & P3)|[P1 P2]]; eauto.
        unfold last_cells in LC0. rewrite A1 in LC0. cbn in LC0. rewrite P1 in LC0. discriminate. }
      destruct LL as [rv LL].
      destruct (add_newdoc hx d v c (PBytes []) (Some (length h)) rv h1 r1) as (U & W); auto.
      + now apply (doc_mono h).
      + apply (cache_mono h); auto. now apply untouched_on.
      + cbn. unfold obj_val. rewrite (at_ok _ _ (CObj (PBytes []))); auto. apply nth_app_new.
      + split; [eapply unt_trans; eauto|]. intros nd n E. destruct (W _ _ E) as (row1 & L1 & h0 & rows' & c' & data' & row' & U0 & W1 & W2 & W3 & W4 & W5 & W6).
        assert (row1 = row0).
        { unfold last_cells in *. rewrite (rows_mono h hx _ _ (untouched_on _ _ _ Ux) A1) in L1. rewrite A1 in LC0. cbn [bind] in *.
          destruct (pyget rows (-1)) as [rl| |]; try discriminate. cbn [bind] in *. rewrite (row_mono h hx _ _ (untouched_on _ _ _ Ux) LC0) in L1. congruence. }
        subst row1. exists h0, rows', c', data', row'. split; [eapply unt_trans; eauto|]. repeat (split; auto). intros l I LL'. apply W5; auto. pose proof (unt_len _ _ Ux). lia. }
  destruct (m h) as [h1 r1] eqn:EM. destruct (M _ _ eq_refl) as (U & W). clear M. rewrite (bind_run _ _ _ _ _ EM) in R. clear EM m.
  destruct r1 as [[nd n]| |]; try (inversion R; subst; now apply tagged_unt).
  destruct (W _ _ eq_refl) as (h0 & rows' & c' & data' & row' & U0 & -> & -> & LR & (w & VN) & IR & _). clear W.
  pose proof (unt_len _ _ U0) as L0. set (h1 := copied h0 rows' c' data' row') in *.
  assert (TAIL : forall l, hbind (h_tag_env (copied_doc h0) n l) (fun _ => do x <- alloc (CObj (PStream [(K_Type, PStr V_ObjStm)] (Some []) (Some [])));
      do _ <- put_cache (hd_cache (copied_doc h0)) n (Some x); hret (copied_doc h0)) h1 = (h', r) -> tagged (fun l => In (HAt l) row0) h h').
  { intros l R'. destruct (h_tag_env (copied_doc h0) n l h1) as [h2 r2] eqn:TE.
    assert (T2 : tagged (fun l => In (HAt l) row0) h h2).
    { refine (tag_env_frame (fun l => In (HAt l) row0) h (copied_doc h0) n rows' _ row' LR IR _ l h1 w VN _ _ (tagged_unt _ _ _ U) h2 r2 TE).
      - cbn. lia.
      - apply copied_rows.
      - apply copied_row. }
    rewrite (bind_run _ _ _ _ _ TE) in R'. destruct r2 as [u| |]; try (inversion R'; now subst). rewrite bind_alloc in R'.
    match type of R' with hbind ?M _ ?H = _ => destruct (M H) as [h3 r3] eqn:PC end.
    assert (T3 : tagged (fun l => In (HAt l) row0) h h3).
    { eapply put_frame; [|cbn; shelve|exact PC]. eapply tagged_trans; [exact T2 | apply unt_app]. Unshelve. cbn. lia. }
    rewrite (bind_run _ _ _ _ _ PC) in R'. destruct r3; inversion R'; now subst. }
  destruct nums as [|z nums].
  - unfold h_changes in R. rewrite !bind_bind, bind_look, (doc_mono _ _ _ _ U V), bind_lift in R.
    destruct (changes v) as [chg| |]; try (inversion R; subst; now apply tagged_unt). eapply TAIL. exact R.
  - rewrite bind_ret in R. eapply TAIL. exact R.
Qed.
End Group.
