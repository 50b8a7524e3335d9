(* Sharing between documents: which objects each function changes. *)
From Coq Require Import List ZArith Bool Lia.
From Coq Require Import ZifyBool ZifyNat.
From Verif Require Import PyBase Model_Objects Model_Filters Model_Filestruct Model_Docstruct Model_Heap
  Spec_Heap Facts_Base Facts_Doc.
Import ListNotations.
Local Open Scope Z_scope.

(* ---------------- lists ---------------- *)
Lemma lset_len {A} (l : list A) i v : length (lset l i v) = length l.
Proof. revert i. induction l as [|x l IH]; intros [|i]; cbn; auto. Qed.
Lemma nth_lset_other {A} (l : list A) i j v : i <> j -> nth_error (lset l i v) j = nth_error l j.
Proof.
  revert i j. induction l as [|x l IH]; intros [|i] [|j] H; cbn; auto; exfalso; lia.
Qed.
Lemma nth_lset_same {A} (l : list A) i v : (i < length l)%nat -> nth_error (lset l i v) i = Some v.
Proof. revert i. induction l as [|x l IH]; intros [|i] H; cbn in *; auto; try lia. apply IH. lia. Qed.
Lemma nth_app_new {A} (l : list A) x : nth_error (l ++ [x]) (length l) = Some x.
Proof. rewrite nth_error_app2 by lia. replace (length l - length l)%nat with O by lia. reflexivity. Qed.
Lemma nth_app_old {A} (l r : list A) i x : nth_error l i = Some x -> nth_error (l ++ r) i = Some x.
Proof. intros H. rewrite nth_error_app1; auto. apply nth_error_Some. congruence. Qed.

Lemma rmap_len {A B} (f : A -> res B) l : forall v, rmap f l = Ok v -> length v = length l.
Proof.
  induction l as [|a l IH]; intros v H; cbn in H.
  - now inversion H.
  - destruct (f a); try discriminate. destruct (rmap f l); try discriminate. inversion H; subst; cbn. f_equal. auto.
Qed.
Lemma rmap_nth {A B} (f : A -> res B) l : forall v i, rmap f l = Ok v ->
  match nth_error l i with
  | Some a => exists b, f a = Ok b /\ nth_error v i = Some b
  | None => nth_error v i = None
  end.
Proof.
  induction l as [|a l IH]; intros v i H; cbn in H.
  - inversion H; subst. now destruct i.
  - destruct (f a) as [b| |] eqn:E; try discriminate. cbn in H.
    destruct (rmap f l) as [w| |]; try discriminate. inversion H; subst.
    destruct i; cbn; eauto. apply IH. reflexivity.
Qed.
Lemma pyidx_len {A B} (l : list A) (v : list B) n : length v = length l -> pyidx v n = pyidx l n.
Proof. unfold pyidx. now intros ->. Qed.
Lemma pyidx_lt {A} (l : list A) n i : pyidx l n = Some i -> (i < length l)%nat.
Proof.
  unfold pyidx. cbv zeta. destruct ((0 <=? n) && _) eqn:E; [intros H; inversion H; lia|].
  destruct (_ && (_ <? 0)) eqn:E1; [intros H; inversion H; lia | discriminate].
Qed.
Lemma rmap_pyget {A B} (f : A -> res B) l v n : rmap f l = Ok v ->
  pyget v n = let* a := pyget l n in f a.
Proof.
  intros H. pose proof (rmap_len _ _ _ H) as L. unfold pyget. rewrite (pyidx_len l v n L).
  destruct (pyidx l n) as [k|] eqn:E; auto.
  pose proof (rmap_nth f l v k H) as N.
  destruct (nth_error l k) as [a|] eqn:E1.
  - destruct N as (b & E2 & ->). cbn. now rewrite E2.
  - apply nth_error_None in E1. apply pyidx_lt in E. lia.
Qed.
Lemma rmap_lset {A B} (f : A -> res B) a b l : forall v i, f a = Ok b -> rmap f l = Ok v ->
  rmap f (lset l i a) = Ok (lset v i b).
Proof.
  induction l as [|x l IH]; intros v i Ha H; cbn in H.
  - inversion H; subst. destruct i; reflexivity.
  - destruct (f x) as [y| |] eqn:E; try discriminate. cbn in H.
    destruct (rmap f l) as [w| |] eqn:Ew; try discriminate. inversion H; subst.
    destruct i; cbn.
    + now rewrite Ha, Ew.
    + rewrite E. cbn. rewrite (IH w i Ha eq_refl). reflexivity.
Qed.
Lemma rmap_pyset {A B} (f : A -> res B) a b l v n : f a = Ok b -> rmap f l = Ok v ->
  pyset v n b = let* l' := pyset l n a in rmap f l'.
Proof.
  intros Ha H. pose proof (rmap_len _ _ _ H) as L. unfold pyset. rewrite (pyidx_len l v n L).
  destruct (pyidx l n); auto. cbn. symmetry. now apply rmap_lset.
Qed.
Lemma rmap_app {A B} (f : A -> res B) l r : forall v w, rmap f l = Ok v -> rmap f r = Ok w ->
  rmap f (l ++ r) = Ok (v ++ w).
Proof.
  induction l as [|x l IH]; intros v w H1 H2; cbn in *.
  - inversion H1; subst. auto.
  - destruct (f x) as [y| |] eqn:E; try discriminate. cbn in *.
    destruct (rmap f l) as [u| |] eqn:Eu; try discriminate. inversion H1; subst.
    rewrite (IH u w eq_refl H2). reflexivity.
Qed.
Lemma rmap_ext {A B} (f g : A -> res B) l : forall v, (forall a b, In a l -> f a = Ok b -> g a = Ok b) ->
  rmap f l = Ok v -> rmap g l = Ok v.
Proof.
  induction l as [|x l IH]; intros v H H1; cbn in *; auto.
  destruct (f x) as [y| |] eqn:E; try discriminate. cbn in *.
  destruct (rmap f l) as [u| |] eqn:Eu; try discriminate. inversion H1; subst.
  rewrite (H x y (or_introl eq_refl) E). cbn. rewrite (IH u (fun a b I => H a b (or_intror I)) eq_refl). reflexivity.
Qed.

(* ---------------- which cells a reading depends on ---------------- *)
Definition is_entry (c : cell) := match c with CRow _ | CEnt _ | CEnts _ => True | _ => False end.
Definition is_obj (c : cell) := match c with CObj _ | CEnv _ _ _ _ | CNums _ => True | _ => False end.
Definition is_cache (c : cell) := match c with CCache _ => True | _ => False end.
Definition is_index (c : cell) := match c with CRows _ => True | _ => False end.
Definition is_data (c : cell) := match c with CData _ | CDatum _ => True | _ => False end.
Definition agree_on (T : cell -> Prop) (h h' : heap) : Prop :=
  forall l c, nth_error h l = Some c -> T c -> nth_error h' l = Some c.

Lemma untouched_on T h h' : untouched h h' -> agree_on T h h'.
Proof. intros H l c E _. auto. Qed.
Lemma agree_sub (T U : cell -> Prop) h h' : (forall c, T c -> U c) -> agree_on U h h' -> agree_on T h h'.
Proof. intros S H l c E t. apply H; auto. Qed.

Lemma at_inv h l c : at_ h l = Ok c -> nth_error h l = Some c.
Proof. unfold at_. destruct (nth_error h l); cbn; congruence. Qed.
Lemma at_ok h l c : nth_error h l = Some c -> at_ h l = Ok c.
Proof. unfold at_. now intros ->. Qed.

Section Mono.
Context (h h' : heap).
Lemma rows_mono l v : agree_on is_index h h' -> rows_at h l = Ok v -> rows_at h' l = Ok v.
Proof. intros H E0. unfold rows_at in *. destruct (at_ h l) as [c| |] eqn:E; try discriminate. apply at_inv in E.
  destruct c; try discriminate; cbn in *. rewrite (at_ok _ _ _ (H _ _ E I)); auto. Qed.
Lemma row_mono l v : agree_on is_entry h h' -> row_at h l = Ok v -> row_at h' l = Ok v.
Proof. intros H E0. unfold row_at in *. destruct (at_ h l) as [c| |] eqn:E; try discriminate. apply at_inv in E.
  destruct c; try discriminate; cbn in *. rewrite (at_ok _ _ _ (H _ _ E I)); auto. Qed.
Lemma ent_mono l v : agree_on is_entry h h' -> ent_at h l = Ok v -> ent_at h' l = Ok v.
Proof. intros H E0. unfold ent_at in *. destruct (at_ h l) as [c| |] eqn:E; try discriminate. apply at_inv in E.
  destruct c; try discriminate; cbn in *. rewrite (at_ok _ _ _ (H _ _ E I)); auto. Qed.
Lemma nums_mono l v : agree_on is_obj h h' -> nums_at h l = Ok v -> nums_at h' l = Ok v.
Proof. intros H E0. unfold nums_at in *. destruct (at_ h l) as [c| |] eqn:E; try discriminate. apply at_inv in E.
  destruct c; try discriminate; cbn in *. rewrite (at_ok _ _ _ (H _ _ E I)); auto. Qed.
Lemma cache_mono l v : agree_on is_cache h h' -> cache_at h l = Ok v -> cache_at h' l = Ok v.
Proof. intros H E0. unfold cache_at in *. destruct (at_ h l) as [c| |] eqn:E; try discriminate. apply at_inv in E.
  destruct c; try discriminate; cbn in *. rewrite (at_ok _ _ _ (H _ _ E I)); auto. Qed.
Lemma dataat_mono l v : agree_on is_data h h' -> data_at h l = Ok v -> data_at h' l = Ok v.
Proof. intros H E0. unfold data_at in *. destruct (at_ h l) as [c| |] eqn:E; try discriminate. apply at_inv in E.
  destruct c; try discriminate; cbn in *. rewrite (at_ok _ _ _ (H _ _ E I)); auto. Qed.
Lemma datum_mono l v : agree_on is_data h h' -> datum_at h l = Ok v -> datum_at h' l = Ok v.
Proof. intros H E0. unfold datum_at in *. destruct (at_ h l) as [c| |] eqn:E; try discriminate. apply at_inv in E.
  destruct c; try discriminate; cbn in *. rewrite (at_ok _ _ _ (H _ _ E I)); auto. Qed.
Lemma slotv_mono s v : agree_on is_entry h h' -> slot_val h s = Ok v -> slot_val h' s = Ok v.
Proof.
  intros H E0. destruct s as [|l]; auto. unfold slot_val in *.
  destruct (at_ h l) as [c| |] eqn:E; try discriminate. apply at_inv in E.
  destruct c; try discriminate; cbn in *; rewrite (at_ok _ _ _ (H _ _ E I)); auto; cbn.
  destruct (rmap (ent_at h) l0) as [w| |] eqn:Ew; try discriminate.
  rewrite (rmap_ext (ent_at h) (ent_at h') l0 w); auto. intros a b _ Hab; now apply ent_mono.
Qed.
Lemma rowv_mono l v : agree_on is_entry h h' -> row_val h l = Ok v -> row_val h' l = Ok v.
Proof.
  intros H E0. unfold row_val in *. destruct (row_at h l) as [r| |] eqn:E; try discriminate.
  rewrite (row_mono _ _ H E). cbn in *. refine (rmap_ext _ _ _ _ _ E0). intros a b _ Hab; now apply slotv_mono.
Qed.
Lemma objv_mono l v : agree_on is_obj h h' -> obj_val h l = Ok v -> obj_val h' l = Ok v.
Proof.
  intros H E0. unfold obj_val in *. destruct (at_ h l) as [c| |] eqn:E; try discriminate. apply at_inv in E.
  destruct c; try discriminate; cbn in *; rewrite (at_ok _ _ _ (H _ _ E I)); auto; cbn.
  destruct (nums_at h f) as [w| |] eqn:Ew; try discriminate. now rewrite (nums_mono _ _ H Ew).
Qed.
Lemma cachedv_mono x v : agree_on is_obj h h' -> cached_val h x = Ok v -> cached_val h' x = Ok v.
Proof. intros H E0. destruct x; auto. now apply objv_mono. Qed.
Lemma cachev_mono l v : agree_on is_cache h h' -> agree_on is_obj h h' -> cache_val h l = Ok v -> cache_val h' l = Ok v.
Proof.
  intros H H0 E0. unfold cache_val in *. destruct (cache_at h l) as [r| |] eqn:E; try discriminate.
  rewrite (cache_mono _ _ H E). cbn in *. refine (rmap_ext _ _ _ _ _ E0). intros a b _ Hab; now apply cachedv_mono.
Qed.
Lemma indexv_mono l v : agree_on is_index h h' -> agree_on is_entry h h' -> index_val h l = Ok v -> index_val h' l = Ok v.
Proof.
  intros H H0 E0. unfold index_val in *. destruct (rows_at h l) as [r| |] eqn:E; try discriminate.
  rewrite (rows_mono _ _ H E). cbn in *. refine (rmap_ext _ _ _ _ _ E0). intros a b _ Hab; now apply rowv_mono.
Qed.
Lemma datav_mono l v : agree_on is_data h h' -> data_val h l = Ok v -> data_val h' l = Ok v.
Proof.
  intros H E0. unfold data_val in *. destruct (data_at h l) as [r| |] eqn:E; try discriminate.
  rewrite (dataat_mono _ _ H E). cbn in *. refine (rmap_ext _ _ _ _ _ E0). intros a b _ Hab; now apply datum_mono.
Qed.
Lemma doc_mono d v : untouched h h' -> doc_val h d = Ok v -> doc_val h' d = Ok v.
Proof.
  intros H E0. unfold doc_val in *.
  destruct (index_val h (hd_index d)) eqn:E1; try discriminate. cbn in E0.
  destruct (cache_val h (hd_cache d)) eqn:E2; try discriminate. cbn in E0.
  destruct (data_val h (hd_data d)) eqn:E3; try discriminate. cbn in E0.
  rewrite (indexv_mono _ _ (untouched_on _ _ _ H) (untouched_on _ _ _ H) E1), (cachev_mono _ _ (untouched_on _ _ _ H) (untouched_on _ _ _ H) E2), (datav_mono _ _ (untouched_on _ _ _ H) E3). auto.
Qed.
End Mono.

Lemma doc_val_inv h d v : doc_val h d = Ok v ->
  index_val h (hd_index d) = Ok (d_index v) /\ cache_val h (hd_cache d) = Ok (d_cache v) /\ data_val h (hd_data d) = Ok (d_data v).
Proof.
  unfold doc_val. destruct (index_val _ _); try discriminate. cbn.
  destruct (cache_val _ _); try discriminate. cbn. destruct (data_val _ _); try discriminate. cbn.
  intros H. inversion H; subst. auto.
Qed.
Lemma doc_val_ok h d i c x : index_val h (hd_index d) = Ok i -> cache_val h (hd_cache d) = Ok c -> data_val h (hd_data d) = Ok x ->
  doc_val h d = Ok (mk_doc i c x).
Proof. unfold doc_val. now intros -> -> ->. Qed.

(* ---------------- untouched ---------------- *)
Lemma unt_refl h : untouched h h. Proof. intros l c H. exact H. Qed.
Lemma unt_trans h1 h2 h3 : untouched h1 h2 -> untouched h2 h3 -> untouched h1 h3.
Proof. intros A B l c H. auto. Qed.
Lemma unt_app h r : untouched h (h ++ r).
Proof. intros l c H. now apply nth_app_old. Qed.
Lemma unt_set h h' l c : untouched h h' -> (length h <= l)%nat -> untouched h (lset h' l c).
Proof.
  intros A L l' c' H. rewrite nth_lset_other; auto.
  assert (l' < length h)%nat by (apply nth_error_Some; congruence). lia.
Qed.
Lemma unt_alloc h h' c : untouched h h' -> untouched h (h' ++ [c]).
Proof. intros A. eapply unt_trans; [exact A | apply unt_app]. Qed.
Lemma unt_len h h' : untouched h h' -> (length h <= length h')%nat.
Proof.
  intros A. destruct (Nat.le_gt_cases (length h) (length h')) as [|L]; auto. exfalso.
  destruct (nth_error h (length h')) as [c|] eqn:E.
  - apply A in E. assert (length h' < length h')%nat by (apply nth_error_Some; congruence). lia.
  - apply nth_error_None in E. lia.
Qed.

(* ---------------- executing ---------------- *)
Lemma bind_look {A B} (f : heap -> res A) (k : A -> hm B) h :
  hbind (look f) k h = match f h with Ok a => k a h | Exc e => (h, Exc e) | Loop => (h, Loop) end.
Proof. unfold hbind, look. now destruct (f h). Qed.
Lemma bind_lift {A B} (r : res A) (k : A -> hm B) h :
  hbind (hlift r) k h = match r with Ok a => k a h | Exc e => (h, Exc e) | Loop => (h, Loop) end.
Proof. unfold hbind, hlift. now destruct r. Qed.
Lemma bind_alloc {B} c (k : loc -> hm B) h : hbind (alloc c) k h = k (length h) (h ++ [c]).
Proof. reflexivity. Qed.
Lemma bind_write {B} l c (k : unit -> hm B) h : hbind (writec l c) k h = k tt (lset h l c).
Proof. reflexivity. Qed.
Lemma bind_ret {A B} (a : A) (k : A -> hm B) h : hbind (hret a) k h = k a h.
Proof. reflexivity. Qed.
Lemma bind_bind {A B C} (m : hm A) (f : A -> hm B) (k : B -> hm C) h :
  hbind (hbind m f) k h = hbind m (fun a => hbind (f a) k) h.
Proof. unfold hbind. destruct (m h) as [h1 [a|e|]]; reflexivity. Qed.
Lemma bind_read {B} l (k : cell -> hm B) h :
  hbind (readc l) k h = match nth_error h l with Some c => k c h | None => (h, Exc EUnsupported) end.
Proof. unfold hbind, readc. now destruct (nth_error h l). Qed.
Lemma bind_run {A B} (m : hm A) (k : A -> hm B) h h1 r : m h = (h1, r) ->
  hbind m k h = match r with Ok a => k a h1 | Exc e => (h1, Exc e) | Loop => (h1, Loop) end.
Proof. unfold hbind. intros ->. now destruct r. Qed.

Lemma lset_app {A} (a b : list A) k v : lset (a ++ b) (length a + k) v = a ++ lset b k v.
Proof. induction a as [|x a IH]; cbn; [reflexivity | now rewrite IH]. Qed.
Lemma lset_app0 {A} (a b : list A) v : lset (a ++ b) (length a) v = a ++ lset b 0 v.
Proof. rewrite <- lset_app. f_equal. lia. Qed.
Lemma nth_app {A} (a b : list A) k : nth_error (a ++ b) (length a + k) = nth_error b k.
Proof. rewrite nth_error_app2 by lia. f_equal. lia. Qed.

Section WithZlib.
Context {ZL : Zlib}.

(* the four new objects of a copy *)
Definition copied (h : heap) (rows : list loc) (cache : list (option loc)) (data : list loc) (row : list hslot) : heap :=
  h ++ [CRows rows; CCache cache; CData data; CRow row].
Definition copied_doc (h : heap) : hdoc := mk_hdoc (length h + 0)%nat (length h + 1)%nat (length h + 2)%nat.

Lemma copy_same_run h d rows cache data rl row rows' :
  rows_at h (hd_index d) = Ok rows -> cache_at h (hd_cache d) = Ok cache -> data_at h (hd_data d) = Ok data ->
  pyget rows (-1) = Ok rl -> row_at h rl = Ok row -> pyset rows (-1) (length h + 3)%nat = Ok rows' ->
  copy_same d h = (copied h rows' cache data row, Ok (copied_doc h)).
Proof.
  intros E1 E2 E3 E4 E5 E6. unfold copy_same.
  rewrite bind_look, E1, bind_alloc, bind_look.
  rewrite (cache_mono h _ _ _ (untouched_on _ _ _ (unt_app h _)) E2), bind_alloc, bind_look.
  rewrite (dataat_mono h _ _ _ (untouched_on _ _ _ (unt_trans _ _ _ (unt_app h _) (unt_app _ _))) E3), bind_alloc, bind_lift, E4, bind_look.
  rewrite (row_mono h _ _ _ (untouched_on _ _ _ (unt_trans _ _ _ (unt_app h _) (unt_trans _ _ _ (unt_app _ _) (unt_app _ _)))) E5).
  rewrite bind_alloc, bind_lift.
  rewrite <- !app_assoc. cbn [app].
  rewrite app_length. cbn [length]. rewrite E6, bind_write.
  unfold copied, copied_doc. rewrite lset_app0. cbn [lset].
  unfold hret. rewrite !app_length. cbn [length]. repeat f_equal; lia.
Qed.


Lemma cached_none h x o : cached_val h x = Ok o -> match x with None => true | Some _ => false end = is_none o.
Proof.
  destruct x as [l|]; cbn; [|now intros [= <-]].
  unfold obj_val. destruct (at_ h l) as [[]| |]; cbn; try discriminate.
  - destruct (is_none o0) eqn:E; [discriminate|]. now intros [= <-].
  - destruct (nums_at h f); cbn; try discriminate. now intros [= <-].
Qed.
(* the parts of a document *)
Lemma doc_parts h d v : doc_val h d = Ok v -> exists rows cache data,
  rows_at h (hd_index d) = Ok rows /\ rmap (row_val h) rows = Ok (d_index v) /\
  cache_at h (hd_cache d) = Ok cache /\ rmap (cached_val h) cache = Ok (d_cache v) /\
  data_at h (hd_data d) = Ok data /\ rmap (datum_at h) data = Ok (d_data v).
Proof.
  intros H. apply doc_val_inv in H. destruct H as (A & B & C). unfold index_val, cache_val, data_val in *.
  destruct (rows_at h (hd_index d)) as [rows| |]; try discriminate.
  destruct (cache_at h (hd_cache d)) as [cache| |]; try discriminate.
  destruct (data_at h (hd_data d)) as [data| |]; try discriminate. cbn in *.
  exists rows, cache, data. auto 8.
Qed.
Lemma row_parts h l v : row_val h l = Ok v -> exists row, row_at h l = Ok row /\ rmap (slot_val h) row = Ok v.
Proof. unfold row_val. destruct (row_at h l) as [r| |]; try discriminate. eauto. Qed.

Lemma pyset_some {A} (l : list A) n x y : pyget l n = Ok x -> exists l', pyset l n y = Ok l'.
Proof. unfold pyget, pyset. destruct (pyidx l n); [eauto | discriminate]. Qed.


Lemma rmap_get {A B} (f : A -> res B) l v n : rmap f l = Ok v ->
  (exists a b, pyget l n = Ok a /\ pyget v n = Ok b /\ f a = Ok b) \/
  (pyget l n = Exc EIndexError /\ pyget v n = Exc EIndexError).
Proof.
  intros H. pose proof (rmap_len _ _ _ H) as L. unfold pyget. rewrite (pyidx_len l v n L).
  destruct (pyidx l n) as [k|] eqn:E; auto. left.
  pose proof (rmap_nth f l v k H) as N. apply pyidx_lt in E.
  destruct (nth_error l k) as [a|] eqn:E1.
  - destruct N as (b & E2 & ->). cbn. eauto.
  - apply nth_error_None in E1. lia.
Qed.
Lemma rmap_set {A B} (f : A -> res B) l v n a b : rmap f l = Ok v -> f a = Ok b ->
  (exists l' v', pyset l n a = Ok l' /\ pyset v n b = Ok v' /\ rmap f l' = Ok v') \/
  (pyset l n a = Exc EIndexError /\ pyset v n b = Exc EIndexError).
Proof.
  intros H Ha. pose proof (rmap_len _ _ _ H) as L. unfold pyset. rewrite (pyidx_len l v n L).
  destruct (pyidx l n) as [k|] eqn:E; auto. left. do 2 eexists. split; [reflexivity|]. split; [reflexivity|].
  now apply rmap_lset.
Qed.
(* the same, when the new value is only there in the heap h' *)
Lemma rmap_mono {A B} (f g : A -> res B) l v : rmap f l = Ok v -> (forall a b, f a = Ok b -> g a = Ok b) -> rmap g l = Ok v.
Proof. intros H M. refine (rmap_ext f g l v _ H). auto. Qed.

Lemma pyset_get_last {A} (l : list A) x l' : pyset l (-1) x = Ok l' -> pyget l' (-1) = Ok x.
Proof.
  unfold pyset, pyget. destruct (pyidx l (-1)) as [k|] eqn:E; try discriminate. intros [= <-].
  rewrite (pyidx_len l _ (-1) (lset_len _ _ _)), E. apply pyidx_lt in E. rewrite nth_lset_same; auto.
Qed.
Lemma pyset_twice {A} (l : list A) n x y l' : pyset l n x = Ok l' -> pyset l' n y = pyset l n y.
Proof.
  unfold pyset. destruct (pyidx l n) as [k|] eqn:E; try discriminate. intros [= <-].
  rewrite (pyidx_len l _ n (lset_len _ _ _)), E. f_equal. clear E.
  revert k. induction l as [|z l IH]; intros [|k]; cbn; f_equal; auto.
Qed.

Lemma at_app h r k c : nth_error r k = Some c -> at_ (h ++ r) (length h + k)%nat = Ok c.
Proof. intros H. apply at_ok. now rewrite nth_app. Qed.

Lemma copied_unt h rows cache data row : untouched h (copied h rows cache data row).
Proof. apply unt_app. Qed.
Lemma copied_rows h rows cache data row : rows_at (copied h rows cache data row) (length h + 0)%nat = Ok rows.
Proof. unfold rows_at, copied. now rewrite (at_app _ _ 0 (CRows rows)). Qed.
Lemma copied_cache h rows cache data row : cache_at (copied h rows cache data row) (length h + 1)%nat = Ok cache.
Proof. unfold cache_at, copied. now rewrite (at_app _ _ 1 (CCache cache)). Qed.
Lemma copied_data h rows cache data row : data_at (copied h rows cache data row) (length h + 2)%nat = Ok data.
Proof. unfold data_at, copied. now rewrite (at_app _ _ 2 (CData data)). Qed.
Lemma copied_row h rows cache data row : row_at (copied h rows cache data row) (length h + 3)%nat = Ok row.
Proof. unfold row_at, copied. now rewrite (at_app _ _ 3 (CRow row)). Qed.
Lemma copied_set1 h rows cache data row x : lset (copied h rows cache data row) (length h + 1) (CCache x) = copied h rows x data row.
Proof. unfold copied. now rewrite lset_app. Qed.
Lemma copied_set3 h rows cache data row x : lset (copied h rows cache data row) (length h + 3) (CRow x) = copied h rows cache data x.
Proof. unfold copied. now rewrite lset_app. Qed.

(* the values of a document whose index, cache, data and last row are new *)
Lemma copied_val h rows rows' cache data row idx idx' c x rv :
  pyset rows (-1) (length h + 3)%nat = Ok rows' -> pyset idx (-1) rv = Ok idx' ->
  rmap (row_val h) rows = Ok idx -> rmap (slot_val h) row = Ok rv ->
  rmap (cached_val h) cache = Ok c -> rmap (datum_at h) data = Ok x ->
  doc_val (copied h rows' cache data row) (copied_doc h) = Ok (mk_doc idx' c x).
Proof.
  intros E1 E2 R1 R2 R3 R4. set (h' := copied h rows' cache data row).
  assert (U : untouched h h') by apply copied_unt.
  apply doc_val_ok; cbn [copied_doc hd_index hd_cache hd_data].
  - unfold index_val. unfold h'. rewrite copied_rows. cbn. fold h'.
    assert (R1' : rmap (row_val h') rows = Ok idx).
    { refine (rmap_mono _ _ _ _ R1 _). intros a b. apply rowv_mono. now apply untouched_on. }
    assert (N : row_val h' (length h + 3)%nat = Ok rv).
    { unfold row_val, h'. rewrite copied_row. cbn. fold h'. refine (rmap_mono _ _ _ _ R2 _). intros a b. apply slotv_mono. now apply untouched_on. }
    pose proof (rmap_pyset _ _ _ _ _ (-1) N R1') as P. rewrite E1 in P. cbn in P. rewrite E2 in P. symmetry in P. exact P.
  - unfold cache_val, h'. rewrite copied_cache. cbn. fold h'. refine (rmap_mono _ _ _ _ R3 _). intros a b. apply cachedv_mono. now apply untouched_on.
  - unfold data_val, h'. rewrite copied_data. cbn. fold h'. refine (rmap_mono _ _ _ _ R4 _). intros a b. apply datum_mono. now apply untouched_on.
Qed.

Definition fresh_doc (h h' : heap) (nd : hdoc) : Prop := (length h <= hd_cache nd < length h')%nat.
Lemma copied_fresh h rows cache data row : fresh_doc h (copied h rows cache data row) (copied_doc h).
Proof. unfold fresh_doc, copied. rewrite app_length. cbn. lia. Qed.

Lemma update_run h d num x v o : doc_val h d = Ok v -> cached_val h x = Ok o -> forall h' r, h_update_object d num x h = (h', r) ->
  untouched h h' /\ gives h' r (update_object v num o) /\ (forall nd, r = Ok nd -> fresh_doc h h' nd).
Proof.
  intros V Hx h' r R. destruct (doc_parts _ _ _ V) as (rows & cache & data & A1 & B1 & A2 & B2 & A3 & B3).
  unfold h_update_object in R. rewrite bind_look, A1, bind_lift in R.
  unfold update_object, last_row.
  destruct (rmap_get _ _ _ (-1) B1) as [(rl & rv & P1 & P2 & P3)|[P1 P2]]; rewrite P1 in R; rewrite P2.
  2:{ inversion R; subst. split; [apply unt_refl|]. split; [reflexivity | discriminate]. }
  destruct (row_parts _ _ _ P3) as (row & Q1 & Q2). rewrite bind_look, Q1, bind_lift in R. cbn [bind].
  destruct (rmap_get _ _ _ num Q2) as [(sl & s & P4 & P5 & P6)|[P4 P5]]; rewrite P4 in R; rewrite P5.
  2:{ inversion R; subst. split; [apply unt_refl|]. split; [reflexivity | discriminate]. }
  rewrite bind_look, P6, bind_lift in R. cbn [bind].
  destruct (as_dict s) as [old|e|]; cbn [bind]; try (inversion R; subst; split; [apply unt_refl|]; split; [reflexivity | discriminate]).
  rewrite bind_lift in R.
  destruct (of_opt EKeyError (n_over old)) as [ov|e|]; cbn [bind]; try (inversion R; subst; split; [apply unt_refl|]; split; [reflexivity | discriminate]).
  rewrite bind_alloc in R.
  pose proof (rmap_len _ _ _ B1) as Lr.
  set (en := with_del _ _) in R.
  assert (EN : en = with_del (is_none o) (with_dver (Some (Z.of_nat (length (d_index v)) - 1)) (with_over (Some (ov + 1)) (ient0 num (n_gen old))))).
  { unfold en. rewrite Lr. f_equal. exact (cached_none _ _ _ Hx). }
  clearbody en. rewrite <- EN. clear EN.
  set (h0 := h ++ [CEnt en]) in R.
  assert (U0 : untouched h h0) by apply unt_app.
  destruct (pyset_some rows (-1) _ (length h0 + 3)%nat P1) as [rows' S1].
  rewrite (bind_run _ _ _ _ _ (copy_same_run h0 d rows cache data rl row rows' (rows_mono _ _ _ _ (untouched_on _ _ _ U0) A1)
     (cache_mono _ _ _ _ (untouched_on _ _ _ U0) A2) (dataat_mono _ _ _ _ (untouched_on _ _ _ U0) A3) P1 (row_mono _ _ _ _ (untouched_on _ _ _ U0) Q1) S1)) in R.
  unfold h_last_row in R. rewrite bind_bind in R. cbn [copied_doc hd_index hd_cache hd_data] in R. rewrite bind_look, copied_rows, bind_lift, (pyset_get_last _ _ _ S1) in R.
  unfold put_slot in R. rewrite bind_bind, bind_look, copied_row, bind_bind, bind_lift in R.
  assert (Q2' : rmap (slot_val h0) row = Ok rv).
  { refine (rmap_mono _ _ _ _ Q2 _). intros a b. apply slotv_mono. now apply untouched_on. }
  assert (EV : slot_val h0 (HAt (length h)) = Ok (SDict en)).
  { unfold slot_val, h0. rewrite (at_ok _ _ (CEnt en)); auto. apply nth_app_new. }
  destruct (rmap_set _ _ _ num _ _ Q2' EV) as [(row' & rv' & S2 & S3 & S4)|[S2 S3]]; rewrite S2 in R; rewrite S3; cbn [bind].
  2:{ inversion R; subst. split; [eapply unt_trans; [exact U0 | apply copied_unt]|]. split; [reflexivity | discriminate]. }
  rewrite bind_write, copied_set3 in R. unfold put_cache in R. rewrite bind_bind, bind_look, copied_cache, bind_bind, bind_lift in R.
  unfold set_last_row. destruct (pyset_some (d_index v) (-1) _ rv' P2) as [idx' S5]. rewrite S5. cbn [bind d_cache].
  assert (B2' : rmap (cached_val h0) cache = Ok (d_cache v)).
  { refine (rmap_mono _ _ _ _ B2 _). intros a b. apply cachedv_mono. now apply untouched_on. }
  assert (Hx' : cached_val h0 x = Ok o) by (eapply cachedv_mono; [apply untouched_on; exact U0 | exact Hx]).
  destruct (rmap_set _ _ _ num _ _ B2' Hx') as [(c' & cv' & S6 & S7 & S8)|[S6 S7]]; rewrite S6 in R; rewrite S7; cbn [bind].
  2:{ inversion R; subst. split; [eapply unt_trans; [exact U0 | apply copied_unt]|]. split; [reflexivity | discriminate]. }
  rewrite bind_write, copied_set1 in R. unfold hret in R. inversion R; subst.
  split; [eapply unt_trans; [exact U0 | apply copied_unt]|]. split.
  - exists (copied_doc h0). split; auto.
    refine (copied_val h0 rows rows' c' data row' (d_index v) idx' cv' (d_data v) rv' S1 S5 _ S4 S8 _).
    + refine (rmap_mono _ _ _ _ B1 _). intros a b. apply rowv_mono. now apply untouched_on.
    + refine (rmap_mono _ _ _ _ B3 _). intros a b. apply datum_mono. now apply untouched_on.
  - intros nd [= <-]. pose proof (copied_fresh h0 rows' c' data row') as F. unfold fresh_doc in *. pose proof (unt_len _ _ U0). lia.
Qed.

Lemma add_run h d x v o : doc_val h d = Ok v -> cached_val h x = Ok o -> forall h' r, h_add_object d x h = (h', r) ->
  untouched h h' /\
  (match add_object v o with
   | Ok (v', i) => exists nd, r = Ok (nd, snd i) /\ doc_val h' nd = Ok v' /\ fresh_doc h h' nd
   | Exc e => r = Exc e | Loop => r = Loop end).
Proof.
  intros V Hx h' r R. destruct (doc_parts _ _ _ V) as (rows & cache & data & A1 & B1 & A2 & B2 & A3 & B3).
  unfold h_add_object in R. rewrite bind_look, A1, bind_lift in R.
  unfold add_object, last_row.
  destruct (rmap_get _ _ _ (-1) B1) as [(rl & rv & P1 & P2 & P3)|[P1 P2]]; rewrite P1 in R; rewrite P2.
  2:{ inversion R; subst. split; [apply unt_refl|reflexivity]. }
  destruct (row_parts _ _ _ P3) as (row & Q1 & Q2). rewrite bind_look, Q1, bind_alloc in R. cbn [bind].
  rewrite <- (rmap_len _ _ _ B1), <- (rmap_len _ _ _ Q2) in R.
  set (num := Z.of_nat (length rv)) in *.
  set (en := with_dver _ _) in *.
  set (h0 := h ++ [CEnt en]) in R.
  assert (U0 : untouched h h0) by apply unt_app.
  destruct (pyset_some rows (-1) _ (length h0 + 3)%nat P1) as [rows' S1].
  rewrite (bind_run _ _ _ _ _ (copy_same_run h0 d rows cache data rl row rows' (rows_mono _ _ _ _ (untouched_on _ _ _ U0) A1)
     (cache_mono _ _ _ _ (untouched_on _ _ _ U0) A2) (dataat_mono _ _ _ _ (untouched_on _ _ _ U0) A3) P1 (row_mono _ _ _ _ (untouched_on _ _ _ U0) Q1) S1)) in R.
  unfold h_last_row in R. rewrite bind_bind in R. cbn [copied_doc hd_index hd_cache hd_data] in R. rewrite bind_look, copied_rows, bind_lift, (pyset_get_last _ _ _ S1) in R.
  rewrite bind_look, copied_row, bind_write, copied_set3, bind_look, copied_cache, bind_write, copied_set1 in R.
  unfold put_cache in R. rewrite bind_bind, bind_look, copied_cache, bind_bind, bind_lift in R.
  assert (Q2' : rmap (slot_val h0) row = Ok rv).
  { refine (rmap_mono _ _ _ _ Q2 _). intros a b. apply slotv_mono. now apply untouched_on. }
  assert (EV : slot_val h0 (HAt (length h)) = Ok (SDict en)).
  { unfold slot_val, h0. rewrite (at_ok _ _ (CEnt en)); auto. apply nth_app_new. }
  assert (Q3 : rmap (slot_val h0) (row ++ [HAt (length h)]) = Ok (rv ++ [SDict en])).
  { apply rmap_app; auto. cbn [rmap]. rewrite EV. reflexivity. }
  unfold set_last_row. destruct (pyset_some (d_index v) (-1) _ (rv ++ [SDict en]) P2) as [idx' S5]. rewrite S5. cbn [bind d_cache].
  assert (B2' : rmap (cached_val h0) (cache ++ [None]) = Ok (d_cache v ++ [PNone])).
  { apply rmap_app; auto. refine (rmap_mono _ _ _ _ B2 _). intros a b. apply cachedv_mono. now apply untouched_on. }
  assert (Hx' : cached_val h0 x = Ok o) by (eapply cachedv_mono; [apply untouched_on; exact U0 | exact Hx]).
  destruct (rmap_set _ _ _ num _ _ B2' Hx') as [(c' & cv' & S6 & S7 & S8)|[S6 S7]]; rewrite S6 in R; rewrite S7; cbn [bind].
  2:{ inversion R; subst. split; [eapply unt_trans; [exact U0 | apply copied_unt]|reflexivity]. }
  rewrite bind_write, copied_set1 in R. unfold hret in R. inversion R; subst.
  split; [eapply unt_trans; [exact U0 | apply copied_unt]|].
  exists (copied_doc h0). split; auto. split.
  - refine (copied_val h0 rows rows' c' data _ (d_index v) idx' cv' (d_data v) _ S1 S5 _ Q3 S8 _).
    + refine (rmap_mono _ _ _ _ B1 _). intros a b. apply rowv_mono. now apply untouched_on.
    + refine (rmap_mono _ _ _ _ B3 _). intros a b. apply datum_mono. now apply untouched_on.
  - pose proof (copied_fresh h0 rows' c' data (row ++ [HAt (length h)])) as F. unfold fresh_doc in *. pose proof (unt_len _ _ U0). lia.
Qed.

(* ---------------- changes of one cache ---------------- *)
Definition cstep (cl : loc) (h h' : heap) : Prop :=
  only (fun l => l = cl) h h' /\ (exists c, nth_error h cl = Some (CCache c)) /\ (exists c, nth_error h' cl = Some (CCache c)).
Lemma cstep_on cl h h' T : cstep cl h h' -> (forall c, ~ T (CCache c)) -> agree_on T h h'.
Proof.
  intros (O & (c & E) & _) N l x Hl Tx. apply O; auto. intros ->. rewrite E in Hl. inversion Hl; subst. now apply (N c).
Qed.
Lemma cstep_refl cl h c : cache_at h cl = Ok c -> cstep cl h h.
Proof.
  unfold cache_at. destruct (at_ h cl) as [[]| |] eqn:E; try discriminate. apply at_inv in E.
  intros _. split; [intros l' x H _; exact H | split; eauto].
Qed.
Lemma cstep_trans cl h1 h2 h3 : cstep cl h1 h2 -> cstep cl h2 h3 -> cstep cl h1 h3.
Proof. intros (A & B & _) (C & _ & D). split; [|split; auto]. intros l c H N. apply C; auto. Qed.
Lemma cstep_alloc cl h h' c : cstep cl h h' -> cstep cl h (h' ++ [c]).
Proof.
  intros (A & B & (c' & E)). split; [|split; auto].
  - intros l x H N. apply nth_app_old. auto.
  - exists c'. now apply nth_app_old.
Qed.
Lemma cstep_unt cl h h' c : cache_at h cl = Ok c -> untouched h h' -> cstep cl h h'.
Proof.
  intros H U. destruct (cstep_refl _ _ _ H) as (_ & B & (c' & E)). split; [|split; eauto]. intros l x Hl _. auto.
Qed.
Lemma cstep_set cl h c c' : cache_at h cl = Ok c -> cstep cl h (lset h cl (CCache c')).
Proof.
  intros H. destruct (cstep_refl _ _ _ H) as (_ & (c0 & E) & _). split; [|split; eauto].
  - intros l x Hl N. rewrite nth_lset_other; auto.
  - exists c'. apply nth_lset_same. apply nth_error_Some. congruence.
Qed.
Lemma cache_at_set h cl c c' : cache_at h cl = Ok c -> cache_at (lset h cl (CCache c')) cl = Ok c'.
Proof.
  intros H. destruct (cstep_refl _ _ _ H) as (_ & (c0 & E) & _). unfold cache_at.
  rewrite (at_ok _ _ (CCache c')); auto. apply nth_lset_same. apply nth_error_Some. congruence.
Qed.
Lemma cstep_obj cl h h' : cstep cl h h' -> agree_on is_obj h h'.
Proof. intros C. apply (cstep_on _ _ _ _ C). auto. Qed.
Lemma cstep_entry cl h h' : cstep cl h h' -> agree_on is_entry h h'.
Proof. intros C. apply (cstep_on _ _ _ _ C). auto. Qed.
Lemma cstep_index cl h h' : cstep cl h h' -> agree_on is_index h h'.
Proof. intros C. apply (cstep_on _ _ _ _ C). auto. Qed.
Lemma cstep_data cl h h' : cstep cl h h' -> agree_on is_data h h'.
Proof. intros C. apply (cstep_on _ _ _ _ C). auto. Qed.

Lemma cache_val_parts h cl c : cache_val h cl = Ok c -> exists x, cache_at h cl = Ok x /\ rmap (cached_val h) x = Ok c.
Proof. unfold cache_val. destruct (cache_at h cl) as [x| |]; try discriminate. eauto. Qed.
Lemma cache_val_cstep h h' cl c x : cstep cl h h' -> cache_at h' cl = Ok x -> rmap (cached_val h) x = Ok c -> cache_val h' cl = Ok c.
Proof.
  intros C E R. unfold cache_val. rewrite E. cbn. refine (rmap_mono _ _ _ _ R _). intros a b.
  apply cachedv_mono. now apply (cstep_obj cl).
Qed.

(* the outcome of a computation on the cache *)
Definition cgives (cl : loc) (h' : heap) (r : res unit) (c : res (list obj)) : Prop :=
  match c with
  | Ok v => r = Ok tt /\ cache_val h' cl = Ok v
  | Exc e => r = Exc e
  | Loop => r = Loop
  end.

Lemma put_run h cl c n x o : cache_val h cl = Ok c -> cached_val h x = Ok o -> forall h' r, put_cache cl n x h = (h', r) ->
  cstep cl h h' /\ cgives cl h' r (pyset c n o).
Proof.
  intros V Hx h' r R. destruct (cache_val_parts _ _ _ V) as (y & A & B).
  unfold put_cache in R. rewrite bind_look, A, bind_lift in R.
  destruct (rmap_set _ _ _ n _ _ B Hx) as [(c' & cv' & S6 & S7 & S8)|[S6 S7]]; rewrite S6 in R; rewrite S7; inversion R; subst.
  - pose proof (cstep_set cl h y c' A) as C. split; auto. cbn. split; auto.
    apply (cache_val_cstep h _ cl cv' c' C); auto. now apply (cache_at_set h cl y).
  - split; [eapply cstep_refl; eauto | reflexivity].
Qed.

Lemma rmap_repeat {A B} (f : A -> res B) a b n : f a = Ok b -> rmap f (repeat a n) = Ok (repeat b n).
Proof. intros H. induction n as [|n IH]; cbn; auto. now rewrite H, IH. Qed.
Lemma grow_run h cl c n : cache_val h cl = Ok c -> forall h' r, grow_cache cl n h = (h', r) ->
  cstep cl h h' /\ r = Ok tt /\ cache_val h' cl = Ok (grow c n).
Proof.
  intros V h' r R. destruct (cache_val_parts _ _ _ V) as (y & A & B).
  unfold grow_cache in R. rewrite bind_look, A in R. unfold grow. rewrite (rmap_len _ _ _ B).
  destruct (Z.of_nat (length y) <=? n); inversion R; subst.
  - set (y' := y ++ _). pose proof (cstep_set cl h y y' A) as C. split; auto. split; auto.
    apply (cache_val_cstep h _ cl _ y' C); auto.
    + now apply (cache_at_set h cl y).
    + apply rmap_app; auto. now apply rmap_repeat.
  - split; [eapply cstep_refl; eauto | auto].
Qed.

Lemma dset_same k d v : dget k d = Some v -> dset k v d = d.
Proof.
  induction d as [|[k' v'] d IH]; cbn; [discriminate|]. destruct (beqb k k'); intros H; [congruence|]. now rewrite IH.
Qed.
Lemma new_obj_run h o h' r : new_obj o h = (h', r) -> exists x, r = Ok x /\ untouched h h' /\ cached_val h' x = Ok o.
Proof.
  assert (S : forall o h' r, is_none o = false -> (do x <- alloc (CObj o); hret (Some x)) h = (h', r) ->
     exists x, r = Ok x /\ untouched h h' /\ cached_val h' x = Ok o).
  { clear. intros o h' r N R. rewrite bind_alloc in R. inversion R; subst. eexists. split; [reflexivity|].
    split; [apply unt_app|]. cbn. unfold obj_val. rewrite (at_ok _ _ (CObj o)) by apply nth_app_new. cbn. now rewrite N. }
  unfold new_obj. destruct o; try (intros R; now apply S in R).
  - intros R. inversion R; subst. exists None. split; auto. split; [apply unt_refl | reflexivity].
  - destruct (dget K_FirstLine d) as [[]|] eqn:E; try (intros R; now apply S in R).
    intros R. rewrite bind_alloc, bind_alloc in R. inversion R; subst. eexists. split; [reflexivity|].
    split; [do 2 apply unt_alloc; apply unt_refl|]. cbn [cached_val]. unfold obj_val.
    rewrite (at_ok _ _ _ (nth_app_new _ _)). cbn [bind]. unfold nums_at.
    rewrite (at_ok _ _ (CNums l)) by (apply nth_app_old; apply nth_app_new). cbn. now rewrite dset_same.
Qed.

Lemma put_embedded_run cl l : forall h c, cache_val h cl = Ok c -> forall h' r, h_put_embedded cl l h = (h', r) ->
  cstep cl h h' /\ cgives cl h' r (put_embedded c l).
Proof.
  induction l as [|e l IH]; intros h c V h' r R; cbn [h_put_embedded put_embedded] in *.
  - inversion R; subst. destruct (cache_val_parts _ _ _ V) as (y & A & _). split; [eapply cstep_refl; eauto | split; auto].
  - destruct (cache_val_parts _ _ _ V) as (y & A & _).
    destruct (e_num e); try (inversion R; subst; split; [eapply cstep_refl; eauto | reflexivity]).
    destruct (grow_cache cl z h) as [h1 r1] eqn:G. destruct (grow_run _ _ _ _ V _ _ G) as (C1 & -> & V1).
    rewrite (bind_run _ _ _ _ _ G) in R.
    destruct (new_obj (e_obj e) h1) as [h2 r2] eqn:N. destruct (new_obj_run _ _ _ _ N) as (x & -> & U & Hx).
    rewrite (bind_run _ _ _ _ _ N) in R.
    destruct (cache_val_parts _ _ _ V1) as (y1 & A1 & _).
    pose proof (cachev_mono h1 h2 cl _ (untouched_on _ _ _ U) (untouched_on _ _ _ U) V1) as V2.
    destruct (put_cache cl z x h2) as [h3 r3] eqn:P. destruct (put_run _ _ _ _ _ _ V2 Hx _ _ P) as (C3 & G3).
    rewrite (bind_run _ _ _ _ _ P) in R.
    pose proof (cstep_trans _ _ _ _ C1 (cstep_trans _ _ _ _ (cstep_unt _ _ _ _ A1 U) C3)) as C.
    destruct (pyset (grow c z) z (e_obj e)) as [c'|ex|]; cbn in G3; cbn [bind].
    + destruct G3 as [-> V3]. destruct (IH _ _ V3 _ _ R) as (C4 & G4). split; auto. eapply cstep_trans; eauto.
    + subst r3. inversion R; subst. split; auto. reflexivity.
    + subst r3. inversion R; subst. split; auto. reflexivity.
Qed.

Lemma memo_run h cl c row p key : cache_val h cl = Ok c -> forall h' r, h_memoize row p key cl h = (h', r) ->
  cstep cl h h' /\ cgives cl h' r (memoize row p key c).
Proof.
  intros V h' r R. destruct (cache_val_parts _ _ _ V) as (y & A & B).
  pose proof (cstep_refl _ _ _ A) as C0.
  unfold h_memoize in R. unfold memoize.
  rewrite bind_lift in R. destruct (pyget row key) as [s|e|]; cbn [bind]; try (inversion R; subst; split; [exact C0 | reflexivity]).
  rewrite bind_lift in R. destruct (deleted_in s) as [del|e|]; cbn [bind]; try (inversion R; subst; split; [exact C0 | reflexivity]).
  destruct del. { inversion R; subst. split; [exact C0 | split; auto]. }
  rewrite bind_look, A, bind_lift in R.
  destruct (rmap_get _ _ _ key B) as [(x & o & P1 & P2 & P3)|[P1 P2]]; rewrite P1 in R; rewrite P2; cbn [bind].
  2:{ inversion R; subst. split; [exact C0 | reflexivity]. }
  rewrite <- (cached_none _ _ _ P3). destruct x as [l|]; cbn [negb].
  { inversion R; subst. split; [exact C0 | split; auto]. }
  assert (Simple : forall o h' r, (do x <- new_obj o; put_cache cl key x) h = (h', r) -> cstep cl h h' /\ cgives cl h' r (pyset c key o)).
  { clear h' r R. intros o' h' r R.
    destruct (new_obj o' h) as [h2 r2] eqn:N. destruct (new_obj_run _ _ _ _ N) as (x & -> & U & Hx).
    rewrite (bind_run _ _ _ _ _ N) in R.
    pose proof (cachev_mono h h2 cl _ (untouched_on _ _ _ U) (untouched_on _ _ _ U) V) as V2.
    destruct (put_run _ _ _ _ _ _ V2 Hx _ _ R) as (C3 & G3). split; auto.
    eapply cstep_trans; [eapply cstep_unt; eauto | exact C3]. }
  destruct (key =? 0).
  - rewrite bind_lift in R. destruct (trailers p _ []) as [d|e|]; cbn [bind]; try (inversion R; subst; split; [exact C0 | reflexivity]).
    now apply Simple.
  - destruct s as [|e|]; try (inversion R; subst; split; [exact C0 | reflexivity]).
    destruct (n_env e) as [k|].
    + rewrite bind_lift in R. destruct (pyget row k) as [cs|ex|]; cbn [bind]; try (inversion R; subst; split; [exact C0 | reflexivity]).
      rewrite bind_lift in R. destruct (as_dict cs) as [ce|ex|]; cbn [bind]; try (inversion R; subst; split; [exact C0 | reflexivity]).
      rewrite bind_lift in R. destruct (parse_at p ce) as [so|ex|]; cbn [bind]; try (inversion R; subst; split; [exact C0 | reflexivity]).
      destruct (grow_cache cl k h) as [h1 r1] eqn:G. destruct (grow_run _ _ _ _ V _ _ G) as (C1 & -> & V1).
      rewrite (bind_run _ _ _ _ _ G) in R.
      destruct (new_obj so h1) as [h2 r2] eqn:N. destruct (new_obj_run _ _ _ _ N) as (x & -> & U & Hx).
      rewrite (bind_run _ _ _ _ _ N) in R.
      destruct (cache_val_parts _ _ _ V1) as (y1 & A1 & _).
      pose proof (cachev_mono h1 h2 cl _ (untouched_on _ _ _ U) (untouched_on _ _ _ U) V1) as V2.
      destruct (put_cache cl k x h2) as [h3 r3] eqn:P. destruct (put_run _ _ _ _ _ _ V2 Hx _ _ P) as (C3 & G3).
      rewrite (bind_run _ _ _ _ _ P) in R.
      pose proof (cstep_trans _ _ _ _ C1 (cstep_trans _ _ _ _ (cstep_unt _ _ _ _ A1 U) C3)) as C.
      destruct (pyset (grow c k) k so) as [c'|ex|]; cbn in G3; cbn [bind]; try (subst r3; inversion R; subst; split; [exact C | reflexivity]).
      destruct G3 as [-> V3].
      destruct so; try (inversion R; subst; split; [exact C | reflexivity]).
      rewrite bind_lift in R. destruct (parse_object_stream d stream k) as [l|ex|]; cbn [bind]; try (inversion R; subst; split; [exact C | reflexivity]).
      destruct (put_embedded_run _ _ _ _ V3 _ _ R) as (C4 & G4). split; auto. eapply cstep_trans; eauto.
    + rewrite bind_lift in R. destruct (parse_at p e) as [o'|ex|]; cbn [bind]; try (inversion R; subst; split; [exact C0 | reflexivity]).
      now apply Simple.
Qed.

Lemma doc_cstep h h' d v c : doc_val h d = Ok v -> cstep (hd_cache d) h h' -> cache_val h' (hd_cache d) = Ok c ->
  doc_val h' d = Ok (with_cache v c).
Proof.
  intros V C E. apply doc_val_inv in V. destruct V as (A & _ & B). unfold with_cache. apply doc_val_ok; auto.
  - eapply indexv_mono; [eapply cstep_index; eauto | eapply cstep_entry; eauto | exact A].
  - eapply datav_mono; [eapply cstep_data; eauto | exact B].
Qed.

Lemma get_run h d o v : doc_val h d = Ok v -> forall h' r, h_get_object d o h = (h', r) ->
  cstep (hd_cache d) h h' /\
  match get_object v o with
  | Ok (w, v') => r = Ok w /\ doc_val h' d = Ok v'
  | Exc e => r = Exc e | Loop => r = Loop end.
Proof.
  intros V h' r R. destruct (doc_parts _ _ _ V) as (rows & cache & data & A1 & B1 & A2 & B2 & A3 & B3).
  pose proof (cstep_refl _ _ _ A2) as C0.
  destruct o; cbn [h_get_object get_object] in *; try (inversion R; subst; split; [exact C0 | split; [reflexivity | exact V]]).
  unfold h_last_row, h_fdata in R. rewrite bind_bind, bind_look, A1, bind_lift in R.
  unfold last_row, fdata_at.
  destruct (rmap_get _ _ _ (-1) B1) as [(rl & rv & P1 & P2 & P3)|[P1 P2]]; rewrite P1 in R; rewrite P2; cbn [bind].
  2:{ inversion R; subst. split; [exact C0 | reflexivity]. }
  rewrite bind_look, P3, bind_bind, bind_look, A3, bind_bind, bind_lift in R.
  destruct (rmap_get _ _ _ (-1) B3) as [(xl & dt & P4 & P5 & P6)|[P4 P5]]; rewrite P4 in R; rewrite P5; cbn [bind].
  2:{ inversion R; subst. split; [exact C0 | reflexivity]. }
  rewrite bind_bind, bind_look, P6, bind_lift in R.
  destruct (of_opt EKeyError (dt_fdata dt)) as [p|e|]; cbn [bind]; try (inversion R; subst; split; [exact C0 | reflexivity]).
  assert (Vc : cache_val h (hd_cache d) = Ok (d_cache v)) by (unfold cache_val; now rewrite A2).
  destruct (h_memoize rv p num (hd_cache d) h) as [h1 r1] eqn:M.
  destruct (memo_run _ _ _ _ _ _ Vc _ _ M) as (C1 & G1). rewrite (bind_run _ _ _ _ _ M) in R.
  destruct (memoize rv p num (d_cache v)) as [c'|e|]; cbn in G1; cbn [bind]; try (subst r1; inversion R; subst; split; [exact C1 | reflexivity]).
  destruct G1 as [-> V1]. destruct (cache_val_parts _ _ _ V1) as (y1 & A4 & B4).
  rewrite bind_look, A4, bind_lift in R.
  destruct (rmap_get _ _ _ num B4) as [(x & o & P7 & P8 & P9)|[P7 P8]]; rewrite P7 in R; rewrite P8; cbn [bind].
  2:{ inversion R; subst. split; [exact C1 | reflexivity]. }
  unfold look in R. inversion R; subst. split; auto. split; auto. now apply (doc_cstep h).
Qed.

(* ---------------- several documents ---------------- *)
Lemma doc_other h h' cl d v : doc_val h d = Ok v -> cstep cl h h' -> hd_cache d <> cl -> doc_val h' d = Ok v.
Proof.
  intros V C N. apply doc_val_inv in V. destruct v as [i c x]. destruct V as (A & B & D). cbn in *. apply doc_val_ok; auto.
  - eapply indexv_mono; [eapply cstep_index; eauto | eapply cstep_entry; eauto | exact A].
  - destruct (cache_val_parts _ _ _ B) as (y & E & R). unfold cache_val.
    assert (E' : cache_at h' (hd_cache d) = Ok y).
    { unfold cache_at in *. destruct (at_ h (hd_cache d)) as [c0| |] eqn:E0; try discriminate. apply at_inv in E0.
      destruct C as (O & _). rewrite (at_ok _ _ _ (O _ _ E0 N)). auto. }
    rewrite E'. cbn. refine (rmap_mono _ _ _ _ R _). intros a b. apply cachedv_mono. eapply cstep_obj; eauto.
  - eapply datav_mono; [eapply cstep_data; eauto | exact D].
Qed.
Definition related (h : heap) (docs : list hdoc) (vals : list doc) : Prop :=
  Forall2 (fun d v => doc_val h d = Ok v) docs vals /\ NoDup (map hd_cache docs).

Lemma cache_in h d v : doc_val h d = Ok v -> (hd_cache d < length h)%nat.
Proof.
  intros V. destruct (doc_parts _ _ _ V) as (rows & cache & data & _ & _ & A2 & _).
  destruct (cstep_refl _ _ _ A2) as (_ & (c & E) & _). apply nth_error_Some. congruence.
Qed.
Lemma related_pick h docs vals i : related h docs vals ->
  (exists d v, pick docs i = Ok d /\ pick vals i = Ok v /\ doc_val h d = Ok v) \/
  (pick docs i = Exc EUnsupported /\ pick vals i = Exc EUnsupported).
Proof.
  intros [F _]. revert i. unfold pick. induction F as [|d v docs vals D F IH]; intros [|i]; cbn; auto.
  left. eauto.
Qed.
Lemma Forall2_app_end {A B} (R : A -> B -> Prop) l m a b : Forall2 R l m -> R a b -> Forall2 R (l ++ [a]) (m ++ [b]).
Proof. intros F H. apply Forall2_app; auto. Qed.
Lemma NoDup_end {A} (l : list A) x : NoDup l -> ~ In x l -> NoDup (l ++ [x]).
Proof.
  induction l as [|y l IH]; cbn; intros N I; [constructor; auto; constructor|].
  inversion N; subst. constructor; [|apply IH; auto]. rewrite in_app_iff. cbn. intuition.
Qed.
Lemma related_new h h' docs vals nd v : related h docs vals -> untouched h h' -> doc_val h' nd = Ok v ->
  (length h <= hd_cache nd)%nat -> related h' (docs ++ [nd]) (vals ++ [v]).
Proof.
  intros [F N] U V L. split.
  - apply Forall2_app_end; auto. revert F. clear -U. induction 1; constructor; auto. eapply doc_mono; eauto.
  - rewrite map_app. cbn. apply NoDup_end; auto. intros I. apply in_map_iff in I. destruct I as (d & E & I).
    assert (exists v, doc_val h d = Ok v) as [w W].
    { clear -F I. induction F as [|a b docs vals D F IH]; [contradiction|]. destruct I as [->|I]; eauto. }
    apply cache_in in W. lia.
Qed.
Lemma related_mono h h' docs vals : related h docs vals -> untouched h h' -> related h' docs vals.
Proof. intros [F N] U. split; auto. revert F. clear -U. induction 1; constructor; auto. eapply doc_mono; eauto. Qed.
Lemma related_read h h' docs vals : related h docs vals -> forall i d v, nth_error docs i = Some d -> cstep (hd_cache d) h h' ->
  doc_val h' d = Ok v -> related h' docs (lset vals i v).
Proof.
  intros [F N] i d v I C V. split; auto. revert i N I. induction F as [|a b docs vals D F IH]; intros i N I.
  - destruct i; discriminate.
  - cbn in N. inversion N as [|? ? N1 N2]; subst. destruct i; cbn in I |- *.
    + inversion I; subst. constructor; auto. clear IH N N2 I.
      induction F as [|a' b' docs vals D' F IH]; constructor.
      * eapply doc_other; eauto. intros E. apply N1. cbn. auto.
      * apply IH. intros X. apply N1. cbn. auto.
    + constructor; [|now apply IH]. eapply doc_other; eauto. intros E. apply N1. rewrite E.
      apply in_map. eapply nth_error_In; eauto.
Qed.

Lemma program_run p : forall docs vals h, related h docs vals -> forall h' r, run p docs h = (h', r) ->
  match ideal p vals with
  | Ok (vals', out) => exists docs', r = Ok (docs', out) /\ related h' docs' vals'
  | Exc e => r = Exc e
  | Loop => r = Loop
  end.
Proof.
  induction p as [|[i num o|i o|i o] p IH]; intros docs vals h RL h' r R; cbn [run ideal] in *.
  - inversion R; subst. eauto.
  - rewrite bind_lift in R. destruct (related_pick _ _ _ i RL) as [(d & v & E1 & E2 & V)|[E1 E2]]; rewrite E1 in R; rewrite E2; cbn [bind].
    2:{ now inversion R. }
    destruct (new_obj o h) as [h1 r1] eqn:N. destruct (new_obj_run _ _ _ _ N) as (x & -> & U & Hx). rewrite (bind_run _ _ _ _ _ N) in R.
    destruct (h_update_object d num x h1) as [h2 r2] eqn:UP.
    destruct (update_run _ _ _ _ _ _ (doc_mono _ _ _ _ U V) Hx _ _ UP) as (U2 & G & FR). rewrite (bind_run _ _ _ _ _ UP) in R.
    destruct (update_object v num o) as [v'|e|]; cbn in G; cbn [bind]; try (subst r2; now inversion R).
    destruct G as (nd & -> & W). refine (IH _ _ _ _ _ _ R).
    apply (related_new h1); auto; [eapply related_mono; eauto | apply (FR nd eq_refl)].
  - rewrite bind_lift in R. destruct (related_pick _ _ _ i RL) as [(d & v & E1 & E2 & V)|[E1 E2]]; rewrite E1 in R; rewrite E2; cbn [bind].
    2:{ now inversion R. }
    destruct (new_obj o h) as [h1 r1] eqn:N. destruct (new_obj_run _ _ _ _ N) as (x & -> & U & Hx). rewrite (bind_run _ _ _ _ _ N) in R.
    destruct (h_add_object d x h1) as [h2 r2] eqn:UP.
    destruct (add_run _ _ _ _ _ (doc_mono _ _ _ _ U V) Hx _ _ UP) as (U2 & G). rewrite (bind_run _ _ _ _ _ UP) in R.
    destruct (add_object v o) as [[v' k]|e|]; cbn in G; cbn [bind]; try (subst r2; now inversion R).
    destruct G as (nd & -> & W & FR). refine (IH _ _ _ _ _ _ R).
    apply (related_new h1); auto; [eapply related_mono; eauto | apply FR].
  - rewrite bind_lift in R. destruct (related_pick _ _ _ i RL) as [(d & v & E1 & E2 & V)|[E1 E2]]; rewrite E1 in R; rewrite E2; cbn [bind].
    2:{ now inversion R. }
    destruct (h_get_object d o h) as [h1 r1] eqn:G. destruct (get_run _ _ _ _ V _ _ G) as (C & W). rewrite (bind_run _ _ _ _ _ G) in R.
    destruct (get_object v o) as [[w v']|e|]; cbn [bind]; try (subst r1; now inversion R).
    destruct W as (-> & W).
    assert (I : nth_error docs i = Some d) by (unfold pick in E1; destruct (nth_error docs i); cbn in E1; congruence).
    pose proof (related_read _ _ _ _ RL _ _ _ I C W) as RL1.
    destruct (run p docs h1) as [h2 r2] eqn:RP. specialize (IH _ _ _ RL1 _ _ RP). rewrite (bind_run _ _ _ _ _ RP) in R.
    destruct (ideal p (lset vals i v')) as [[vals' out]|e|]; cbn [bind]; try (subst r2; now inversion R).
    destruct IH as (docs' & -> & RL2). inversion R; subst. eauto.
Qed.
End WithZlib.
