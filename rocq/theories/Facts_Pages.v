(* Page trees, the list of pages and rotations *)
From Coq Require Import String.
From Verif Require Import PyBase Model_Filters Model_Objects Model_Filestruct Model_Text Model_Docstruct Model_Api.
From Verif Require Import Spec_Objects Spec_Filestruct Spec_Docstruct Spec_Pages.
From Verif Require Import Facts_Base Facts_Obj Facts_Revision Facts_Doc Facts_Commit Facts_Write Facts_Edit.
From Coq Require Import ZifyBool ZifyNat.

Section WithZlib.
Context {ZL : Zlib}.

(* ---------- dictionaries of attributes ---------- *)
Fixpoint near (k : bytes) (l : list dict) : option obj :=
  match l with
  | [] => None
  | nd :: r => match dget k nd with None | Some PNone => near k r | Some v => Some v end
  end.
Lemma near_spec k l r : nearest k l r <-> r = near k l.
Proof.
  split.
  - intro H. induction H as [|nd l v D NN|nd l r D H IH]; cbn [near]; auto.
    + rewrite D. destruct v; congruence.
    + destruct D as [D|D]; rewrite D; auto.
  - intros ->. induction l as [|nd l IH]; cbn [near]; [constructor|]. destruct (dget k nd) as [v|] eqn:D.
    + destruct v; try (now apply Ne_here). apply Ne_next; auto.
    + apply Ne_next; auto.
Qed.
Definition inh_keyb (k : bytes) : bool := existsb (beqb k) INHERITABLE_ATTRS.
Lemma inh_key_spec k : inh_keyb k = true <-> inheritable_key k.
Proof.
  unfold inh_keyb, inheritable_key, INHERITABLE_ATTRS. cbn [existsb]. rewrite !orb_true_iff, !beqb_eq. intuition discriminate.
Qed.
Lemma dget_nil k : dget k [] = None.
Proof. reflexivity. Qed.
Lemma dget_dupdate k e : forall d, dget k (dupdate d e) = match dget k (rev e) with Some v => Some v | None => dget k d end.
Proof.
  unfold dupdate. induction e as [|[k' v] e IH]; intro d; cbn [fold_left rev fst snd]; [reflexivity|]. rewrite IH, dget_app. destruct (dget k (rev e)); auto.
  rewrite dget_dset. cbn [dget]. destruct (beqb k k'); reflexivity.
Qed.
Lemma dget_inheritable k nd : dget k (rev (inheritable nd)) = if inh_keyb k then near k [nd] else None.
Proof.
  unfold inheritable, inh_keyb, INHERITABLE_ATTRS. cbn [flat_map existsb near].
  assert (ONE : forall k', dget k (match dget k' nd with None | Some PNone => [] | Some v => [(k', v)] end) =
      if beqb k k' then near k [nd] else None).
  { intro k'. cbn [near]. destruct (beqb k k') eqn:E.
    - apply beqb_eq in E. subst k'. destruct (dget k nd) as [v|]; [|reflexivity]. destruct v; cbn [dget]; rewrite ?beqb_refl; reflexivity.
    - destruct (dget k' nd) as [v|]; [|reflexivity]. destruct v; cbn [dget]; rewrite ?E; reflexivity. }
  assert (SINGLE : forall k', rev (match dget k' nd with None | Some PNone => [] | Some v => [(k', v)] end) = match dget k' nd with None | Some PNone => [] | Some v => [(k', v)] end).
  { intro k'. destruct (dget k' nd) as [v|]; [|reflexivity]. destruct v; reflexivity. }
  rewrite !rev_app_distr, !SINGLE, !dget_app, !ONE. cbn [near rev dget].
  destruct (beqb k K_Resources) eqn:E1, (beqb k K_MediaBox) eqn:E2, (beqb k K_CropBox) eqn:E3, (beqb k K_Rotate) eqn:E4; cbn [orb]; try (apply beqb_eq in E1; subst k); try (apply beqb_eq in E2; subst k); try (apply beqb_eq in E3; subst k); try (apply beqb_eq in E4; subst k); try discriminate; try reflexivity;
  match goal with |- context[dget ?a nd] => destruct (dget a nd) as [[]|]; reflexivity end.
Qed.
Definition inh_of (base : dict) (anc : list dict) (k : bytes) : option obj :=
  if inh_keyb k then match near k anc with Some v => Some v | None => dget k base end else dget k base.
Lemma inherited_spec base x k r : inherited base x k r <-> r = inh_of base (snd x) k.
Proof.
  unfold inh_of. split.
  - intros [v K N|N].
    + apply inh_key_spec in K. rewrite K. apply near_spec in N. now rewrite <- N.
    + destruct (inh_keyb k) eqn:K; auto. apply inh_key_spec in K. specialize (N K). apply near_spec in N. now rewrite <- N.
  - intros ->. destruct (inh_keyb k) eqn:K.
    + destruct (near k (snd x)) as [v|] eqn:N.
      * apply In_near; [now apply inh_key_spec|]. apply near_spec. auto.
      * apply In_base. intros _. apply near_spec. auto.
    + apply In_base. intro H. apply inh_key_spec in H. congruence.
Qed.
Definition attr_of (base : dict) (x : leaf) (k : bytes) : option obj :=
  match dget k (leaf_page x) with Some v => Some v | None => inh_of base (snd x) k end.
Lemma attribute_spec base x k r : attribute base x k r <-> r = attr_of base x k.
Proof.
  unfold attr_of. split.
  - intros [v E|r' E I]; rewrite E; [auto|]. now apply inherited_spec.
  - intros ->. destruct (dget k (leaf_page x)) as [v|] eqn:E; [now apply At_own|]. apply At_up; auto. now apply inherited_spec.
Qed.
Lemma inh_dupdate base nd anc k : inh_of (dupdate base (inheritable nd)) anc k = inh_of base (anc ++ [nd]) k.
Proof.
  unfold inh_of. rewrite dget_dupdate, dget_inheritable. destruct (inh_keyb k); [|reflexivity].
  assert (A : forall l m, near k (l ++ m) = match near k l with Some v => Some v | None => near k m end).
  { induction l as [|x l IH]; intro m; cbn [near app]; auto. destruct (dget k x) as [[]|]; auto. }
  rewrite A. destruct (near k anc); auto.
Qed.
Lemma inh_ext b b' anc k : dget k b = dget k b' -> inh_of b anc k = inh_of b' anc k.
Proof. unfold inh_of. intros ->. reflexivity. Qed.
Lemma dupdate_twice base nd k : dget k (dupdate (dupdate base (inheritable nd)) (inheritable nd)) = dget k (dupdate base (inheritable nd)).
Proof. rewrite !dget_dupdate. destruct (dget k (rev _)); auto. Qed.

(* ---------- trees ---------- *)
Section Induction.
Context (P : ptree -> Prop) (HL : forall o p, P (Leaf o p)) (HN : forall o nd kids, Forall P kids -> P (Node o nd kids)).
Fixpoint ptree_rect2 (t : ptree) : P t :=
  match t with
  | Leaf o p => HL o p
  | Node o nd kids => HN o nd kids ((fix go (l : list ptree) : Forall P l := match l with [] => Forall_nil P | x :: r => Forall_cons x (ptree_rect2 x) (go r) end) kids)
  end.
End Induction.
Lemma holds_ro d d1 t : read_only d d1 -> holds d t -> holds d1 t.
Proof.
  intro R. revert t. apply (ptree_rect2 (fun t => holds d t -> holds d1 t)).
  - intros o p H. inversion H; subst. econstructor; eauto. eapply points_ro; eauto.
  - intros o nd kids IH H. inversion H; subst. econstructor; eauto; [eapply points_ro; eauto|]. rewrite Forall_forall in *. intros k I. auto.
Qed.
Lemma has_tree_ro d d1 t : read_only d d1 -> has_tree d t -> has_tree d1 t.
Proof. intros R (c & cat & A & T1 & T2 & B & H & E). exists c, cat. split; [eapply catalog_ro; eauto|]. repeat (split; [assumption|]). split; [eapply holds_ro; eauto|auto]. Qed.
Lemma depth_kid o nd kids k : In k kids -> (depth k < depth (Node o nd kids))%nat.
Proof.
  intro I. cbn [depth]. apply Nat.lt_succ_r. induction kids as [|x r IH]; [destruct I|]. cbn [fold_right]. destruct I as [<-|I]; [lia|]. specialize (IH I). lia.
Qed.
Definition listed (base : dict) (x : obj * dict) (l : leaf) : Prop := fst x = leaf_ref l /\ forall k, dget k (snd x) = inh_of base (snd l) k.
Lemma listed_ext b b' x l : (forall k, dget k b = dget k b') -> listed b x l -> listed b' x l.
Proof. intros E [H1 H2]. split; [auto|]. intro k. rewrite H2. now apply inh_ext. Qed.
Lemma truthy_ref d o n v : points_at d o n v -> obj_truthy o = true.
Proof. intros (g & -> & N & _). cbn [obj_truthy]. replace (n =? 0) with false by lia. rewrite andb_false_r. reflexivity. Qed.

Lemma Forall2_impl {A C} (R Q : A -> C -> Prop) l m : (forall x y, R x y -> Q x y) -> Forall2 R l m -> Forall2 Q l m.
Proof. induction 2; constructor; auto. Qed.
Definition grown (nd : dict) (kids : list ptree) (base : dict) : dict := match kids with [] => base | _ => dupdate base (inheritable nd) end.
Lemma kids_spec f nd :
  forall kids, Forall (fun t => forall d inh, coherent d -> holds d t -> (depth t < f)%nat ->
      exists l inh' d1, page_tree f None d (tref t) inh = Ok (Some l, inh', d1) /\ read_only d d1 /\ Forall2 (listed inh) l (leaves t)) kids ->
  forall d inh accu done, coherent d -> Forall (holds d) kids -> Forall (fun t => (depth t < f)%nat) kids ->
    Forall2 (listed (dupdate inh (inheritable nd))) accu done ->
    exists l inh' d1, kids_loop (page_tree f None) nd None d inh accu (map tref kids) = Ok (l, inh', d1) /\ read_only d d1 /\
      (forall k, dget k inh' = dget k (grown nd kids inh)) /\
      Forall2 (listed (dupdate inh (inheritable nd))) l (done ++ flat_map leaves kids).
Proof.
  induction kids as [|t kids IH]; intros FA d inh accu done C H D A; cbn [map kids_loop flat_map].
  - exists accu, inh, d. split; [auto|]. split; [now apply read_only_refl|]. split; [reflexivity|]. now rewrite app_nil_r.
  - inversion FA as [|? ? F1 F2]; subst. inversion H as [|? ? H1 H2]; subst. inversion D as [|? ? D1 D2]; subst. set (inh' := dupdate inh (inheritable nd)) in *.
    destruct (F1 d inh' C H1 D1) as (l & i2 & d1 & E & R & L). rewrite E. cbn [bind].
    destruct (IH F2 d1 inh' (accu ++ l) (done ++ leaves t) (ro_coherent _ _ R)) as (l2 & i3 & d2 & E2 & R2 & G2 & L2).
    + rewrite Forall_forall in *. intros k I. eapply holds_ro; eauto.
    + auto.
    + apply Forall2_app.
      * eapply Forall2_impl; [|exact A]. intros x y. apply listed_ext. intro k. unfold inh'. now rewrite dupdate_twice.
      * eapply Forall2_impl; [|exact L]. intros x y. apply listed_ext. intro k. unfold inh'. now rewrite dupdate_twice.
    + exists l2, i3, d2. split; [exact E2|]. split; [eapply read_only_trans; eauto|]. split.
      * intro k. rewrite G2. unfold grown. destruct kids; [reflexivity|]. unfold inh'. apply dupdate_twice.
      * rewrite app_assoc. eapply Forall2_impl; [|exact L2]. intros x y. apply listed_ext. intro k. unfold inh'. now rewrite dupdate_twice.
Qed.
Lemma Forall2_map_r {A C D} (R : A -> D -> Prop) (f : C -> D) l m : Forall2 R l (map f m) <-> Forall2 (fun x y => R x (f y)) l m.
Proof.
  split.
  - revert l. induction m as [|y m IH]; intros l H; inversion H; subst; constructor; auto.
  - induction 1; constructor; auto.
Qed.
Lemma listed_down base nd l (m : list leaf) : Forall2 (listed (dupdate base (inheritable nd))) l m <-> Forall2 (listed base) l (map (fun x => (fst x, snd x ++ [nd])) m).
Proof.
  rewrite Forall2_map_r. split; intro H; eapply Forall2_impl; try exact H; intros x y [H1 H2]; (split; [exact H1|]); intro k; specialize (H2 k); cbn [snd] in *; rewrite H2; [|symmetry]; apply inh_dupdate.
Qed.
Lemma leaves_node o nd kids : leaves (Node o nd kids) = map (fun x => (fst x, snd x ++ [nd])) (flat_map leaves kids).
Proof. cbn [leaves]. induction kids as [|k kids IH]; cbn [flat_map map]; [reflexivity|]. now rewrite map_app, IH. Qed.
Lemma node_at f d num o n nd kids inh dn : points_at dn o n (PDict nd) -> dget K_Type nd = Some (PStr K_Pages) -> dget K_Kids nd = Some (PList (map tref kids)) ->
  (if obj_truthy num then get_object d num else let* (c, _, dc) := catalog d in let* pr := item K_Pages c in get_object dc pr) = Ok (PDict nd, dn) ->
  page_tree (S f) None d num inh = let* (accu, inh', d2) := kids_loop (page_tree f None) nd None dn inh [] (map tref kids) in Ok (Some accu, inh', d2).
Proof. intros P T K G. cbn [page_tree]. rewrite G. cbn [bind item]. rewrite T. cbn [of_opt bind]. unfold str_is. rewrite beqb_refl. cbn [dict_of bind]. rewrite K. reflexivity. Qed.
Lemma tree_spec t : forall f d inh, coherent d -> holds d t -> (depth t < f)%nat ->
  exists l inh' d1, page_tree f None d (tref t) inh = Ok (Some l, inh', d1) /\ read_only d d1 /\ Forall2 (listed inh) l (leaves t).
Proof.
  revert t. apply (ptree_rect2 (fun t => forall f d inh, coherent d -> holds d t -> (depth t < f)%nat ->
  exists l inh' d1, page_tree f None d (tref t) inh = Ok (Some l, inh', d1) /\ read_only d d1 /\ Forall2 (listed inh) l (leaves t))).
  - intros o p f d inh C H D. inversion H as [o' n p' P T|]; subst. destruct f as [|f]; [lia|]. cbn [page_tree tref]. rewrite (truthy_ref _ _ _ _ P).
    destruct (points_read d o n _ C P) as (d1 & G & R). rewrite G. cbn [bind item]. rewrite T. cbn [of_opt bind]. unfold str_is.
    replace (beqb K_Page K_Pages) with false by reflexivity. rewrite beqb_refl. exists [(o, inh)], inh, d1. split; [reflexivity|]. split; [auto|].
    cbn [leaves]. constructor; [|constructor]. split; [reflexivity|]. intro k. cbn [snd]. unfold inh_of. cbn [near]. destruct (inh_keyb k); reflexivity.
  - intros o nd kids IH f d inh C H D. inversion H as [|o' n nd' kids' P T K FH]; subst. destruct f as [|f]; [lia|]. destruct (points_read d o n _ C P) as (dn & G & R).
    change (tref (Node o nd kids)) with o. rewrite (node_at f d o o n nd kids inh dn (points_ro _ _ _ _ _ R P) T K) by (rewrite (truthy_ref _ _ _ _ P); exact G).
    assert (DK : Forall (fun t => (depth t < f)%nat) kids). { apply Forall_forall. intros k I. pose proof (depth_kid o nd kids k I). lia. }
    destruct (kids_spec f nd kids) with (d := dn) (inh := inh) (accu := @nil (obj * dict)) (done := @nil leaf) as (l & inh' & d1 & E & R1 & G1 & L).
    + eapply Forall_impl; [|exact IH]. cbn beta. intros t Ht d' i' C' H' D'. apply Ht; auto.
    + exact (ro_coherent _ _ R).
    + rewrite Forall_forall in *. intros k I. eapply holds_ro; eauto.
    + auto.
    + constructor.
    + rewrite E. cbn [bind]. exists l, inh', d1. split; [auto|]. split; [eapply read_only_trans; eauto|]. cbn [app] in L. rewrite leaves_node. apply listed_down. exact L.
Qed.
(* the attributes that stay in the default value of the parameter *)
Definition left_over (t : ptree) (base : dict) : dict := match t with Leaf _ _ => base | Node _ nd kids => grown nd kids base end.
Lemma flat_spec t f d base : coherent d -> has_tree d t -> (depth t < f)%nat ->
  exists l base' d1, flat_page_tree f d base None = Ok (Some l, base', d1) /\ read_only d d1 /\ Forall2 (listed base) l (leaves t) /\ forall k, dget k base' = dget k (left_over t base).
Proof.
  intros C (c & cat & CA & _ & _ & PG & H & (o & nd & kids & ->)) D. destruct f as [|f]; [lia|]. inversion H as [|o' n nd' kids' P T K FH]; subst. cbn [tref] in PG.
  destruct (catalog_read d c cat C CA) as (g & dc & EC & RC). destruct (points_read dc o n _ (ro_coherent _ _ RC) (points_ro _ _ _ _ _ RC P)) as (dn & G & R).
  pose proof (read_only_trans _ _ _ RC R) as RR. unfold flat_page_tree.
  rewrite (node_at f d PNone o n nd kids base dn (points_ro _ _ _ _ _ RR P) T K).
  2:{ cbn [obj_truthy]. rewrite EC. cbn [bind item]. rewrite PG. cbn [of_opt bind]. exact G. }
  assert (DK : Forall (fun t => (depth t < f)%nat) kids). { apply Forall_forall. intros k I. pose proof (depth_kid o nd kids k I). lia. }
  destruct (kids_spec f nd kids) with (d := dn) (inh := base) (accu := @nil (obj * dict)) (done := @nil leaf) as (l & inh' & d1 & E & R1 & G1 & L).
  - apply Forall_forall. intros t I d' i' C' H' D'. apply tree_spec; auto.
  - exact (ro_coherent _ _ R).
  - rewrite Forall_forall in *. intros k I. eapply holds_ro; eauto.
  - auto.
  - constructor.
  - rewrite E. cbn [bind]. exists l, inh', d1. split; [auto|]. split; [eapply read_only_trans; eauto|]. cbn [app] in L. rewrite leaves_node. split; [apply listed_down; exact L|]. exact G1.
Qed.

(* ---------- pages ---------- *)
Lemma leaf_holds d t : holds d t -> Forall (fun x => exists n, points_at d (leaf_ref x) n (PDict (leaf_page x)) /\ dget K_Type (leaf_page x) = Some (PStr K_Page)) (leaves t).
Proof.
  revert t. apply (ptree_rect2 (fun t => holds d t -> Forall (fun x => exists n, points_at d (leaf_ref x) n (PDict (leaf_page x)) /\ dget K_Type (leaf_page x) = Some (PStr K_Page)) (leaves t))).
  - intros o p H. inversion H; subst. cbn [leaves]. constructor; [|constructor]. eauto.
  - intros o nd kids IH H. inversion H; subst. rewrite leaves_node. apply Forall_map. cbn [leaf_ref leaf_page fst]. apply Forall_forall. intros x I. apply in_flat_map in I. destruct I as (k & Ik & Ix).
    rewrite Forall_forall in *. specialize (IH k Ik (H6 k Ik)). rewrite Forall_forall in IH. exact (IH x Ix).
Qed.
Lemma dhas_dget k d : dhas k d = match dget k d with Some _ => true | None => false end.
Proof. reflexivity. Qed.
Lemma add_missing_get k inh : forall o, dget k (add_missing o inh) = match dget k o with Some v => Some v | None => dget k inh end.
Proof.
  unfold add_missing. induction inh as [|[k' v] inh IH]; intro o; cbn [fold_left fst snd dget]; [destruct (dget k o); auto|]. rewrite IH. rewrite dhas_dget. destruct (dget k' o) eqn:E.
  - destruct (dget k o) eqn:E2; auto. destruct (beqb k k') eqn:Q; auto. apply beqb_eq in Q. congruence.
  - rewrite dget_dset. destruct (beqb k k') eqn:Q; auto. apply beqb_eq in Q. subst. rewrite E. auto.
Qed.
Definition viewed (base : dict) (p : dict) (x : leaf) : Prop := forall k, dget k p = attr_of base x k.
Lemma page_dicts_spec base ls : forall d l, coherent d -> Forall (fun x => exists n, points_at d (leaf_ref x) n (PDict (leaf_page x)) /\ dget K_Type (leaf_page x) = Some (PStr K_Page)) ls ->
  Forall2 (listed base) l ls -> exists ps d1, page_dicts d l = Ok (ps, d1) /\ read_only d d1 /\ Forall2 (viewed base) ps ls.
Proof.
  induction ls as [|x ls IH]; intros d l C H L; inversion L as [|[o inh] y l' ls' [L1 L2] L3]; subst; cbn [page_dicts].
  - exists [], d. split; [auto|]. split; [now apply read_only_refl|constructor].
  - inversion H as [|? ? [n [P T]] H2]; subst. cbn [fst] in L1. subst o. destruct (points_read d _ n _ C P) as (d1 & G & R). rewrite G. cbn [bind dict_of].
    destruct (IH d1 l' (ro_coherent _ _ R)) as (ps & d2 & E & R2 & V); [|auto|].
    + eapply Forall_impl; [|exact H2]. cbn beta. intros z (m & Pz & Tz). exists m. split; [eapply points_ro; eauto|auto].
    + rewrite E. cbn [bind]. eexists _, d2. split; [reflexivity|]. split; [eapply read_only_trans; eauto|]. constructor; [|auto].
      intro k. rewrite add_missing_get. unfold attr_of. cbn [snd] in L2. rewrite L2. reflexivity.
Qed.
Lemma pages_spec t f d base : coherent d -> has_tree d t -> (depth t < f)%nat ->
  exists ps base' d1, pages f d base None = Ok (ps, base', d1) /\ read_only d d1 /\ Forall2 (viewed base) ps (leaves t) /\ forall k, dget k base' = dget k (left_over t base).
Proof.
  intros C H D. destruct (flat_spec t f d base C H D) as (l & b' & d1 & E & R & L & B). unfold pages. rewrite E. cbn [bind].
  destruct (page_dicts_spec base (leaves t) d1 l (ro_coherent _ _ R)) as (ps & d2 & E2 & R2 & V); [|auto|].
  - destruct (has_tree_ro _ _ _ R H) as (_ & _ & _ & _ & _ & _ & HH & _). now apply leaf_holds.
  - rewrite E2. cbn [bind]. exists ps, b', d2. split; [auto|]. split; [eapply read_only_trans; eauto|]. auto.
Qed.
Lemma left_over_grows t base k : dget k base <> None -> dget k (left_over t base) <> None.
Proof.
  intro H. destruct t as [o p|o nd kids]; [exact H|]. cbn [left_over]. unfold grown. destruct kids; [exact H|]. rewrite dget_dupdate. destruct (dget k (rev _)); [discriminate|exact H].
Qed.

(* ---------- rotations ---------- *)
Lemma in_numbered {A} (l : list A) : forall s i x, In (i, x) (numbered s l) <-> exists j, i = s + Z.of_nat j /\ nth_error l j = Some x.
Proof.
  induction l as [|y l IH]; intros s i x; cbn [numbered In].
  - split; [intros []|]. intros (j & _ & E). destruct j; discriminate.
  - rewrite IH. split.
    + intros [E|(j & -> & E)]; [injection E as <- <-; exists 0%nat; split; [lia|auto]|]. exists (S j). split; [lia|auto].
    + intros (j & -> & E). destruct j as [|j]; cbn [nth_error] in E; [left; injection E as ->; f_equal; lia|]. right. exists j. split; [lia|auto].
Qed.
Lemma numbered_snd {A} (l : list A) : forall s, map snd (numbered s l) = l.
Proof. induction l as [|y l IH]; intro s; cbn [numbered map snd]; [auto|]. now rewrite IH. Qed.
Lemma numbered2 {A C} (R : A -> C -> Prop) l m : Forall2 R l m -> forall s, Forall2 (fun x y => fst x = fst y /\ R (snd x) (snd y)) (numbered s l) (numbered s m).
Proof. induction 1 as [|x y l m H H2 IH]; intro s; cbn [numbered]; constructor; auto. Qed.
Lemma filter2 {A C} (R : A -> C -> Prop) (f : A -> bool) (g : C -> bool) l m : (forall x y, R x y -> f x = g y) -> Forall2 R l m -> Forall2 R (filter f l) (filter g m).
Proof. intros E. induction 1 as [|x y l m H H2 IH]; cbn [filter]; [constructor|]. rewrite (E x y H). destruct (g y); [constructor; auto|auto]. Qed.
Lemma NoDup_map_filter {A C} (f : A -> C) (g : A -> bool) l : NoDup (map f l) -> NoDup (map f (filter g l)).
Proof.
  induction l as [|x l IH]; cbn [map filter]; [auto|]. intro H. inversion H; subst. destruct (g x); [|auto]. cbn [map]. constructor; auto.
  rewrite in_map_iff in *. intros (y & E & I). apply filter_In in I. apply H2. exists y. tauto.
Qed.
Definition placed (d : doc) (cl : list (obj * dict)) (x : Z * obj) (n : Z) : Prop :=
  exists g inh p, pyget cl (fst x) = Ok (PRef g n, inh) /\ 0 < n /\ value d n = Ok (PDict p).
Lemma rotate_one_spec d cl x n a : editable d -> placed d cl x n -> exists y p, pyget cl (fst x) = Ok y /\ value d n = Ok (PDict p) /\
  match angle (snd x) a with
  | Ok v => exists d1, rotate_one d (fst y) (snd x) a = Ok d1 /\ updated d d1 n (PDict (dset K_Rotate v p))
  | _ => forall d1, rotate_one d (fst y) (snd x) a <> Ok d1
  end.
Proof.
  intros ED (g & inh & p & G & N & V). exists (PRef g n, inh), p. split; [auto|]. split; [auto|]. cbn [fst]. unfold rotate_one.
  destruct (read_ok d g n _ (editable_coherent d ED) ltac:(lia) V) as (d1 & G1 & R). rewrite G1. cbn [bind dict_of].
  destruct (angle (snd x) a) as [v| |]; cbn [bind]; try (intros; discriminate). cbn [snd].
  destruct (update_ok d1 n (PDict (dset K_Rotate v p)) (PDict p)) as (d2 & U & S2); [eapply editable_ro; eauto|auto|rewrite (ro_values _ _ R); [auto|lia]|].
  exists d2. split; [auto|]. destruct S2 as [S1 S2 S3 S4 S5]. constructor; auto.
  - rewrite S2. apply (ro_data _ _ R).
  - intros row O. destruct (S3 row) as (r1 & O1 & L1); [|eauto]. unfold open_row in *. now rewrite (ro_index _ _ R).
  - intros k K NE. rewrite S5 by auto. now apply (ro_values _ _ R).
Qed.
Lemma rotate_all_spec a cl : forall l ns d, Forall2 (placed d cl) l ns -> NoDup ns -> editable d ->
  (forall d', rotate_all d cl a l = Ok d' -> editable d' /\ d_data d' = d_data d /\ (forall k, 0 <= k -> ~ In k ns -> value d' k = value d k) /\
     Forall2 (fun x n => exists p v, value d n = Ok (PDict p) /\ angle (snd x) a = Ok v /\ value d' n = Ok (PDict (dset K_Rotate v p))) l ns) /\
  (Forall (fun x => exists v, angle (snd x) a = Ok v) l -> exists d', rotate_all d cl a l = Ok d').
Proof.
  induction l as [|x l IH]; intros ns d F ND ED; inversion F as [|? n ? ns' P F2]; subst; cbn [rotate_all].
  - split; [|eauto]. intros d' E. injection E as <-. auto.
  - inversion ND as [|? ? NI ND2]; subst. destruct x as [nb old]. destruct (rotate_one_spec d cl (nb, old) n a ED P) as (y & p & G & V & H). cbn [fst snd] in *. rewrite G. cbn [bind].
    destruct (angle old a) as [v| |] eqn:EA.
    2:{ split; [|intro FF; inversion FF as [|? ? [v' Ev] _]; cbn in Ev; congruence]. intros d'. destruct (rotate_one d (fst y) old a) as [d1| |]; cbn [bind]; try discriminate. destruct (H d1 eq_refl). }
    2:{ split; [|intro FF; inversion FF as [|? ? [v' Ev] _]; cbn in Ev; congruence]. intros d'. destruct (rotate_one d (fst y) old a) as [d1| |]; cbn [bind]; try discriminate. destruct (H d1 eq_refl). }
    destruct H as (d1 & E1 & U). rewrite E1. cbn [bind].
    assert (F3 : Forall2 (placed d1 cl) l ns').
    { clear -F2 NI U. induction F2 as [|z m l ns H H2 IH]; constructor.
      - destruct H as (g & inh & q & G & N & V). exists g, inh, q. split; [auto|]. split; [auto|]. rewrite (up_other _ _ _ _ U); [auto|lia|]. intros ->. apply NI. now left.
      - apply IH. intro I. apply NI. now right. }
    destruct (IH ns' d1 F3 ND2 (up_editable _ _ _ _ U)) as [I1 I2]. split.
    + intros d' E. destruct (I1 d' E) as (E3 & D3 & O3 & A3). split; [auto|]. split; [rewrite D3; apply (up_data _ _ _ _ U)|]. split.
      * intros k K NK. rewrite O3; auto; [apply (up_other _ _ _ _ U); auto|]; intro; apply NK; cbn [In]; auto.
      * assert (PN : 0 < n) by (destruct P as (? & ? & ? & _ & N & _); auto). constructor.
        -- exists p, v. split; [auto|]. split; [auto|]. rewrite O3; [apply (up_value _ _ _ _ U)|lia|auto].
        -- clear -A3 U NI F2. induction A3 as [|z m l ns H H2 IH]; constructor.
           ++ destruct H as (q & w & V & W). exists q, w. split; [|auto]. rewrite <- V. symmetry. inversion F2 as [|? ? ? ? (g & inh & q' & G & N & V') _]; subst. apply (up_other _ _ _ _ U); [lia|]. intros ->. apply NI. now left.
           ++ inversion F2; subst. apply IH; auto. intro I. apply NI. now right.
    + intro FF. inversion FF; subst. auto.
Qed.
Lemma angle_turned base x p a v : viewed base p x -> angle (match dget K_Rotate p with Some r => r | None => PNone end) a = Ok v ->
  exists z, turned base x z /\ v = PInt ((z + a) mod 360).
Proof.
  intros V E. rewrite (V K_Rotate) in E. destruct (attr_of base x K_Rotate) as [r|] eqn:A.
  - unfold angle in E. destruct (obj_truthy r) eqn:T.
    + destruct r; try discriminate. injection E as <-. exists z. split; [|auto]. apply Tu_int. now apply attribute_spec.
    + injection E as <-. exists 0. split; [|auto]. apply (Tu_null _ _ r); [now apply attribute_spec|auto].
  - injection E as <-. exists 0. split; [|auto]. apply Tu_none. now apply attribute_spec.
Qed.
Lemma turned_angle base x p a z : viewed base p x -> turned base x z -> angle (match dget K_Rotate p with Some r => r | None => PNone end) a = Ok (PInt ((z + a) mod 360)).
Proof.
  intros V T. rewrite (V K_Rotate). destruct T as [z A|A|v A T]; apply attribute_spec in A; rewrite <- A; unfold angle.
  - cbn [obj_truthy]. destruct (z =? 0) eqn:E; cbn [negb]; auto. apply Z.eqb_eq in E. now subst.
  - reflexivity.
  - now rewrite T.
Qed.
Lemma turned_fun base x z z' : turned base x z -> turned base x z' -> z = z'.
Proof.
  intros T T'. destruct T as [z A|A|v A T]; destruct T' as [z' A'|A'|v' A' T']; apply attribute_spec in A; apply attribute_spec in A'; rewrite <- A in A'; try discriminate; try congruence.
  - injection A' as ->. cbn in T'. lia.
  - injection A' as <-. cbn in T. lia.
Qed.
Definition workb (pgs : list Z) (i : Z) : bool := match pgs with [] => true | _ => existsb (Z.eqb i) pgs end.
Lemma workb_spec pgs i : workb pgs (Z.of_nat i) = true <-> selected pgs i.
Proof.
  unfold workb, selected. destruct pgs as [|y l]; [tauto|]. rewrite existsb_exists. split.
  - intros (z & I & E). apply Z.eqb_eq in E. subst. auto.
  - intros [H|I]; [discriminate|]. exists (Z.of_nat i). split; [auto|]. apply Z.eqb_refl.
Qed.
Definition picked (pgs : list Z) (t : ptree) : list (Z * leaf) := filter (fun x => workb pgs (fst x)) (numbered 0 (leaves t)).
Lemma picked_in pgs t i x : In (Z.of_nat i, x) (picked pgs t) <-> nth_error (leaves t) i = Some x /\ selected pgs i.
Proof.
  unfold picked. rewrite filter_In, in_numbered. cbn [fst]. rewrite workb_spec. split.
  - intros [(j & E & H) S]. split; [|auto]. replace i with j by lia. auto.
  - intros [H S]. split; [|auto]. exists i. split; [lia|auto].
Qed.
Lemma picked_any pgs t i x : In (i, x) (picked pgs t) -> exists j, i = Z.of_nat j /\ nth_error (leaves t) j = Some x /\ selected pgs j.
Proof.
  intro H. assert (H' := H). unfold picked in H. apply filter_In in H. destruct H as [H _]. apply in_numbered in H. destruct H as (j & -> & _). cbn in H'. exists j. split; [lia|]. rewrite <- picked_in. exact H'.
Qed.
Lemma Forall2_map_l {A C D} (h : A -> D) (R : A -> C -> Prop) (Q : D -> C -> Prop) l m : (forall x y, R x y -> Q (h x) y) -> Forall2 R l m -> Forall2 Q (map h l) m.
Proof. intro H. induction 1; cbn [map]; constructor; auto. Qed.
Lemma layouts_spec base ps ls : Forall2 (viewed base) ps ls ->
  (forall l, map_res layout_of ps = Ok l -> (forall x, In x ls -> exists m, attribute base x K_MediaBox (Some m)) /\
      Forall2 (fun y x => exists p, viewed base p x /\ snd y = match dget K_Rotate p with Some r => r | None => PNone end) l ls) /\
  ((forall x, In x ls -> exists m, attribute base x K_MediaBox (Some m)) -> exists l, map_res layout_of ps = Ok l).
Proof.
  induction 1 as [|p x ps ls V F IH]; cbn [map_res].
  - split; [|eauto]. intros l E. injection E as <-. split; [intros x []|constructor].
  - destruct IH as [I1 I2]. unfold layout_of at 1 3. rewrite (V K_MediaBox). split.
    + intro l. destruct (attr_of base x K_MediaBox) as [m|] eqn:M; cbn [of_opt bind]; [|discriminate].
      destruct (map_res layout_of ps) as [l'| |]; cbn [bind]; try discriminate. intro E. injection E as <-. destruct (I1 l' eq_refl) as [J1 J2]. split.
      * intros y [<-|I]; [exists m; now apply attribute_spec|auto].
      * constructor; [|auto]. exists p. split; [auto|reflexivity].
    + intro H. destruct (H x (or_introl eq_refl)) as [m M]. apply attribute_spec in M. rewrite <- M. cbn [of_opt bind]. destruct I2 as [l' E]; [intros; apply H; now right|]. rewrite E. cbn [bind]. eauto.
Qed.
Lemma Forall2_nth {A C} (R : A -> C -> Prop) l m : Forall2 R l m -> forall i y, nth_error m i = Some y -> exists x, nth_error l i = Some x /\ R x y.
Proof. induction 1 as [|x y l m H F IH]; intros i z E; destruct i; cbn [nth_error] in *; try discriminate; eauto. injection E as ->. eauto. Qed.
Lemma Forall2_in_r {A C} (R : A -> C -> Prop) l m : Forall2 R l m -> forall y, In y m -> exists x, In x l /\ R x y.
Proof. induction 1 as [|x y l m H F IH]; intros z [].  - subst. exists x. split; [now left|auto]. - destruct (IH z H0) as (w & I & Q). exists w. split; [now right|auto]. Qed.
Lemma Forall2_in_l {A C} (R : A -> C -> Prop) l m : Forall2 R l m -> forall x, In x l -> exists y, In y m /\ R x y.
Proof. induction 1 as [|x y l m H F IH]; intros z [].  - subst. exists y. split; [now left|auto]. - destruct (IH z H0) as (w & I & Q). exists w. split; [now right|auto]. Qed.
Lemma Forall2_with_in {A C} (R : A -> C -> Prop) l m : Forall2 R l m -> Forall2 (fun x y => In y m /\ R x y) l m.
Proof.
  induction 1 as [|x y l m H F IH]; constructor; [split; [now left|auto]|]. eapply Forall2_impl; [|exact IH]. cbn beta. intros a b [I Q]. split; [now right|auto].
Qed.
Lemma Forall2_map_r' {A C D} (R : A -> D -> Prop) (f : C -> D) l m : Forall2 (fun x y => R x (f y)) l m -> Forall2 R l (map f m).
Proof. apply Forall2_map_r. Qed.
Lemma rotate_spec t f d base a pgs : editable d -> has_tree d t -> NoDup (map leaf_num (leaves t)) -> (depth t < f)%nat ->
  (forall d1 b1, rotate f d base a pgs = Ok (d1, b1) -> rotatable base t pgs /\ turned_doc base t pgs a d d1 /\ forall k, dget k base <> None -> dget k b1 <> None) /\
  (rotatable base t pgs -> exists d1 b1, rotate f d base a pgs = Ok (d1, b1)).
Proof.
  intros ED HT ND D. pose proof (editable_coherent d ED) as C.
  destruct (pages_spec t f d base C HT D) as (ps & b1 & d1 & E1 & R1 & V1 & B1).
  destruct (layouts_spec base ps (leaves t) V1) as [L1 L2].
  pose proof (has_tree_ro _ _ _ R1 HT) as HT1.
  destruct (flat_spec t f d1 b1 (ro_coherent _ _ R1) HT1 D) as (cl & b2 & d2 & E2 & R2 & F2 & B2).
  pose proof (read_only_trans _ _ _ R1 R2) as R. pose proof (has_tree_ro _ _ _ R HT) as HT2.
  assert (LH : Forall (fun x => exists n, points_at d2 (leaf_ref x) n (PDict (leaf_page x)) /\ dget K_Type (leaf_page x) = Some (PStr K_Page)) (leaves t)).
  { destruct HT2 as (_ & _ & _ & _ & _ & _ & HH & _). now apply leaf_holds. }
  pose proof (editable_ro _ _ ED R) as ED2.
  unfold rotate, page_layouts. rewrite E1. cbn [bind].
  destruct (map_res layout_of ps) as [ly| |] eqn:EL; cbn [bind].
  2:{ split; [discriminate|]. intros [H _]. destruct (L2 H). discriminate. }
  2:{ split; [discriminate|]. intros [H _]. destruct (L2 H). discriminate. }
  destruct (L1 ly eq_refl) as [MB FL]. rewrite E2. cbn [bind of_opt].
  set (al := map _ (filter _ (numbered 0 ly))).
  assert (FA : Forall2 (fun y z => fst y = fst z /\ exists p, viewed base p (snd z) /\ snd y = match dget K_Rotate p with Some r => r | None => PNone end) al (picked pgs t)).
  { unfold al, picked. pose proof (numbered2 _ _ _ FL 0) as N2.
    pose proof (filter2 _ (fun x : Z * (obj * obj) => workb pgs (fst x)) (fun x : Z * leaf => workb pgs (fst x)) _ _ (fun x y H => f_equal (workb pgs) (proj1 H)) N2) as N3.
    refine (Forall2_map_l (fun x : Z * (obj * obj) => (fst x, snd (snd x))) _ _ _ _ _ N3). intros x y H. exact H. }
  set (ns := map (fun x : Z * leaf => leaf_num (snd x)) (picked pgs t)).
  assert (PL : Forall2 (placed d2 cl) al ns).
  { unfold ns. apply Forall2_map_r'. eapply Forall2_impl; [|exact (Forall2_with_in _ _ _ FA)]. cbn beta. intros y [i x] (I & E & _). cbn [fst snd] in *.
    destruct (picked_any _ _ _ _ I) as (j & -> & NE & SEL). destruct (Forall2_nth _ _ _ F2 j x NE) as ([o inh] & NC & [Q _]). cbn [fst] in Q.
    rewrite Forall_forall in LH. destruct (LH x (nth_error_In _ _ NE)) as (n & (g & Eo & N & V) & T). exists g, inh, (leaf_page x). split.
    - rewrite E. apply pyget_cell; [lia|]. split; [lia|]. rewrite Nat2Z.id. unfold leaf_num. rewrite Eo in *. subst o. exact NC.
    - unfold leaf_num. rewrite Eo. auto. }
  assert (NDN : NoDup ns).
  { unfold ns, picked. apply NoDup_map_filter. rewrite <- (map_map snd leaf_num), numbered_snd. exact ND. }
  destruct (rotate_all_spec a cl al ns d2 PL NDN ED2) as [RA1 RA2]. split.
  - intros d3 b3 E. destruct (rotate_all d2 cl a al) as [d4| |] eqn:ER; cbn [bind] in E; try discriminate. injection E as <- <-.
    destruct (RA1 d4 eq_refl) as (ED4 & D4 & O4 & S4).
    assert (ALL : Forall2 (fun y z => exists w, turned base (snd z) w /\ angle (snd y) a = Ok (PInt ((w + a) mod 360)) /\ value d4 (leaf_num (snd z)) = Ok (PDict (dset K_Rotate (PInt ((w + a) mod 360)) (leaf_page (snd z))))) al (picked pgs t)).
    { unfold ns in S4. apply Forall2_map_r in S4. clear -FA S4 LH. assert (SUB : forall z, In z (picked pgs t) -> exists n, points_at d2 (leaf_ref (snd z)) n (PDict (leaf_page (snd z)))).
      { intros [i x] I. destruct (picked_any _ _ _ _ I) as (j & _ & NE & _). rewrite Forall_forall in LH. destruct (LH x (nth_error_In _ _ NE)) as (n & P & _). eauto. }
      revert SUB S4. induction FA as [|y z l m (H0 & p & V & E) F IH]; intros SUB S4; constructor; inversion S4 as [|? ? ? ? (q & v & A1 & A2 & A3) S5]; subst.
      - rewrite E in A2. destruct (angle_turned _ _ _ _ _ V A2) as (w & T & ->). exists w. split; [auto|]. split; [now rewrite E|]. destruct (SUB z (or_introl eq_refl)) as (n & g & Eo & N & Vn).
        unfold leaf_num in *. rewrite Eo in *. assert (q = leaf_page (snd z)) by congruence. subst q. exact A3.
      - apply IH; auto. intros; apply SUB. now right. }
    split; [split; [exact MB|]|split].
    + intros i x NE SEL. destruct (Forall2_in_r _ _ _ ALL (Z.of_nat i, x)) as (y & _ & w & T & _); [now apply picked_in|]. exists w. exact T.
    + constructor; auto.
      * rewrite D4. apply (ro_data _ _ R).
      * intros i x NE SEL. destruct (Forall2_in_r _ _ _ ALL (Z.of_nat i, x)) as (y & _ & w & T & _ & V); [now apply picked_in|]. exists w. auto.
      * intros n N NS. rewrite O4; [now apply (ro_values _ _ R)|auto|]. unfold ns. rewrite in_map_iff. intros ([i x] & E & I). destruct (picked_any _ _ _ _ I) as (j & _ & NE & SEL). exact (NS j x NE SEL E).
    + intros k K. rewrite B2. apply left_over_grows. rewrite B1. now apply left_over_grows.
  - intros [_ TU]. destruct RA2 as [d' E].
    + apply Forall_forall. intros y I. destruct (Forall2_in_l _ _ _ FA y I) as ([i x] & I2 & E & p & V & Er). destruct (picked_any _ _ _ _ I2) as (j & _ & NE & SEL). destruct (TU j x NE SEL) as (z & T).
      rewrite Er. eexists. exact (turned_angle _ _ _ a _ V T).
    + rewrite E. cbn [bind]. eauto.
Qed.

(* the tree of the rotated document *)
Fixpoint regrow (g : Z -> dict -> dict) (t : ptree) : ptree :=
  match t with
  | Leaf o p => Leaf o (g (match o with PRef _ n => n | _ => 0 end) p)
  | Node o nd kids => Node o nd (map (regrow g) kids)
  end.
Lemma tref_regrow g t : tref (regrow g t) = tref t.
Proof. destruct t; reflexivity. Qed.
Lemma leaves_regrow g t : leaves (regrow g t) = map (fun x => (leaf_ref x, g (leaf_num x) (leaf_page x), snd x)) (leaves t).
Proof.
  revert t. apply (ptree_rect2 (fun t => leaves (regrow g t) = map (fun x => (leaf_ref x, g (leaf_num x) (leaf_page x), snd x)) (leaves t))).
  - reflexivity.
  - intros o nd kids IH. cbn [regrow]. rewrite !leaves_node, map_map.
    assert (E : flat_map leaves (map (regrow g) kids) = map (fun x => (leaf_ref x, g (leaf_num x) (leaf_page x), snd x)) (flat_map leaves kids)).
    { induction IH as [|k kids H F IHk]; cbn [map flat_map]; [reflexivity|]. now rewrite map_app, IHk, H. }
    rewrite E, map_map. reflexivity.
Qed.
Lemma depth_regrow g t : depth (regrow g t) = depth t.
Proof.
  revert t. apply (ptree_rect2 (fun t => depth (regrow g t) = depth t)); [reflexivity|]. intros o nd kids IH. cbn [regrow depth]. f_equal. induction IH as [|k kids H F IHk]; cbn [map fold_right]; [reflexivity|]. now rewrite H, IHk.
Qed.
Lemma regrow_holds g d d1 all t : holds d t ->
  (forall n, 0 <= n -> ~ In n all -> value d1 n = value d n) ->
  (forall n v, In n all -> value d n = Ok v -> exists p, v = PDict p /\ dget K_Type p = Some (PStr K_Page)) ->
  (forall x, In x (leaves t) -> value d1 (leaf_num x) = Ok (PDict (g (leaf_num x) (leaf_page x))) /\ dget K_Type (g (leaf_num x) (leaf_page x)) = Some (PStr K_Page)) ->
  holds d1 (regrow g t).
Proof.
  intros H O T. revert t H. apply (ptree_rect2 (fun t => holds d t -> (forall x, In x (leaves t) -> value d1 (leaf_num x) = Ok (PDict (g (leaf_num x) (leaf_page x))) /\ dget K_Type (g (leaf_num x) (leaf_page x)) = Some (PStr K_Page)) -> holds d1 (regrow g t))).
  - intros o p H L. inversion H as [? n ? (gn & -> & N & V) Ty|]; subst. destruct (L (PRef gn n, p, []) (or_introl eq_refl)) as [L1 L2]. cbn in L1, L2. cbn [regrow]. econstructor; [|exact L2]. exists gn. split; [reflexivity|]. split; [exact N|auto].
  - intros o nd kids IH H L. inversion H as [|? n ? ? (gn & -> & N & V) Ty K FH]; subst. cbn [regrow]. econstructor; [|exact Ty| |].
    + exists gn. split; [reflexivity|]. split; [exact N|]. rewrite O; [exact V|lia|]. intro I. destruct (T n _ I V) as (p & E & Tp). injection E as <-. rewrite Ty in Tp. discriminate.
    + rewrite map_map. rewrite K. do 2 f_equal. apply map_ext. intro k. symmetry. apply tref_regrow.
    + rewrite leaves_node in L. apply Forall_map. rewrite Forall_forall in *. intros k I. apply IH; auto. intros x Ix. apply (L (fst x, snd x ++ [nd])). apply in_map_iff. exists x. split; [auto|]. apply in_flat_map. eauto.
Qed.
Lemma leaf_types d t n v : holds d t -> In n (map leaf_num (leaves t)) -> value d n = Ok v -> exists p, v = PDict p /\ dget K_Type p = Some (PStr K_Page).
Proof.
  intros H I V. apply in_map_iff in I. destruct I as (x & <- & I). pose proof (leaf_holds d t H) as LH. rewrite Forall_forall in LH. destruct (LH x I) as (n & (g & E & N & V') & T). unfold leaf_num in V. rewrite E in V. exists (leaf_page x). split; [congruence|auto].
Qed.
Lemma regrow_tree g d d1 t : has_tree d t ->
  (forall n, 0 <= n -> ~ In n (map leaf_num (leaves t)) -> value d1 n = value d n) ->
  (forall x, In x (leaves t) -> value d1 (leaf_num x) = Ok (PDict (g (leaf_num x) (leaf_page x))) /\ dget K_Type (g (leaf_num x) (leaf_page x)) = Some (PStr K_Page)) ->
  has_tree d1 (regrow g t).
Proof.
  intros (c & cat & (tr & r & V0 & Er & (gc & -> & N & Vc)) & T1 & T2 & PG & H & (o & nd & kids & ->)) O L. exists c, cat.
  assert (TY := fun n v => leaf_types d _ n v H). split; [|split; [auto|split; [auto|split; [rewrite tref_regrow; auto|split]]]].
  - exists tr, (PRef gc c). split; [|split; [auto|]].
    + rewrite O; [auto|lia|]. intro I. apply in_map_iff in I. destruct I as (x & E & I). pose proof (leaf_holds d _ H) as LH. rewrite Forall_forall in LH. destruct (LH x I) as (n & (g' & E' & N' & V') & T'). unfold leaf_num in E. rewrite E' in E. lia.
    + exists gc. split; [auto|]. split; [auto|]. rewrite O; [auto|lia|]. intro I. destruct (TY _ _ I Vc) as (p & E & Tp). injection E as <-. contradiction.
  - eapply regrow_holds; eauto.
  - cbn [regrow]. eauto.
Qed.

(* turning twice *)
Lemma dset_dset k v w d : dset k v (dset k w d) = dset k v d.
Proof.
  induction d as [|[k' x] d IH]; cbn [dset]; [now rewrite beqb_refl|]. destruct (beqb k k') eqn:E; cbn [dset]; rewrite E; [auto|]. now rewrite IH.
Qed.
Lemma nodup_nth {A C} (f : A -> C) l i j x y : NoDup (map f l) -> nth_error l i = Some x -> nth_error l j = Some y -> f x = f y -> i = j.
Proof.
  intros ND X Y E. apply (proj1 (NoDup_nth_error (map f l)) ND); [apply nth_error_Some; rewrite nth_error_map, X; discriminate|]. rewrite !nth_error_map, X, Y. cbn. now rewrite E.
Qed.
Theorem rotate_twice t f d base a b pgs d1 b1 : editable d -> has_tree d t -> NoDup (map leaf_num (leaves t)) -> (depth t < f)%nat ->
  rotate f d base a pgs = Ok (d1, b1) ->
  exists d2 b2 d3 b3, rotate f d1 b1 b pgs = Ok (d2, b2) /\ rotate f d base (a + b) pgs = Ok (d3, b3) /\ same_values d3 d2.
Proof.
  intros ED HT ND D E. destruct (rotate_spec t f d base a pgs ED HT ND D) as [S1 _]. destruct (S1 d1 b1 E) as (RT & [ED1 D1 SEL1 OTH1] & GR).
  destruct (rotate_spec t f d base (a + b) pgs ED HT ND D) as [S3 S3']. destruct (S3' RT) as (d3 & b3 & E3). destruct (S3 d3 b3 E3) as (_ & [ED3 D3 SEL3 OTH3] & _).
  set (g := fun n p => match value d1 n with Ok (PDict q) => q | _ => p end).
  pose proof HT as (_ & _ & _ & _ & _ & _ & HH & _). pose proof (leaf_holds d t HH) as LH. rewrite Forall_forall in LH.
  assert (VAL : forall x, In x (leaves t) -> 0 < leaf_num x /\ value d (leaf_num x) = Ok (PDict (leaf_page x)) /\ dget K_Type (leaf_page x) = Some (PStr K_Page)).
  { intros x I. destruct (LH x I) as (n & (gn & Er & N & V) & T). unfold leaf_num. rewrite Er. auto. }
  assert (SELD : forall i, selected pgs i \/ ~ selected pgs i). { intro i. destruct (workb pgs (Z.of_nat i)) eqn:W; [left; now apply workb_spec|right]. rewrite <- workb_spec. congruence. }
  assert (UNS : forall i x, nth_error (leaves t) i = Some x -> ~ selected pgs i -> value d1 (leaf_num x) = Ok (PDict (leaf_page x))).
  { intros i x NE NS. destruct (VAL x (nth_error_In _ _ NE)) as (N & V & _). rewrite OTH1; [auto|lia|]. intros j y NE' SEL' Q. apply NS. rewrite (nodup_nth _ _ _ _ _ _ ND NE NE' (eq_sym Q)). exact SEL'. }
  assert (LEAF : forall x, In x (leaves t) -> value d1 (leaf_num x) = Ok (PDict (g (leaf_num x) (leaf_page x))) /\ dget K_Type (g (leaf_num x) (leaf_page x)) = Some (PStr K_Page)).
  { intros x I. destruct (VAL x I) as (N & V & T). destruct (In_nth_error _ _ I) as [i NE]. unfold g. destruct (SELD i) as [SEL|NS].
    - destruct (SEL1 i x NE SEL) as (z & _ & V1). rewrite V1. split; [auto|]. rewrite dget_dset_neq; [auto|discriminate].
    - rewrite (UNS i x NE NS). auto. }
  assert (HT1 : has_tree d1 (regrow g t)).
  { eapply regrow_tree; eauto. intros n N NI. apply OTH1; [auto|]. intros i x NE _ <-. apply NI. apply in_map. eapply nth_error_In; eauto. }
  assert (LR := leaves_regrow g t).
  assert (NTH : forall i x', nth_error (leaves (regrow g t)) i = Some x' -> exists x, nth_error (leaves t) i = Some x /\ x' = (leaf_ref x, g (leaf_num x) (leaf_page x), snd x)).
  { intros i x' NE. rewrite LR, nth_error_map in NE. destruct (nth_error (leaves t) i) as [x|]; [|discriminate]. cbn in NE. injection NE as <-. eauto. }
  assert (NUM : forall x p l, leaf_num (leaf_ref x, p, l) = leaf_num x) by reflexivity.
  assert (ND1 : NoDup (map leaf_num (leaves (regrow g t)))). { rewrite LR, map_map. exact ND. }
  destruct (rotate_spec (regrow g t) f d1 b1 b pgs ED1 HT1 ND1 ltac:(now rewrite depth_regrow)) as [S2 S2'].
  destruct S2' as (d2 & b2 & E2).
  { split.
    - intros x' I. rewrite LR in I. apply in_map_iff in I. destruct I as (x & <- & I). destruct (proj1 RT x I) as [m M].
      assert (GM : dget K_MediaBox (g (leaf_num x) (leaf_page x)) = dget K_MediaBox (leaf_page x)).
      { unfold g. destruct (In_nth_error _ _ I) as [i NE]. destruct (SELD i) as [SEL|NS]; [destruct (SEL1 i x NE SEL) as (z & _ & V1); rewrite V1; apply dget_dset_neq; discriminate|rewrite (UNS i x NE NS); auto]. }
      apply attribute_spec in M. unfold attr_of in M. destruct (attr_of b1 (leaf_ref x, g (leaf_num x) (leaf_page x), snd x) K_MediaBox) as [m'|] eqn:A; [exists m'; now apply attribute_spec|]. exfalso.
      unfold attr_of in A. cbn [leaf_page fst snd] in A. rewrite GM in A. unfold leaf_page in *. destruct (dget K_MediaBox (snd (fst x))); [discriminate|]. unfold inh_of in *. change (inh_keyb K_MediaBox) with true in *. cbv iota in *. destruct (near K_MediaBox (snd x)); [discriminate|]. apply (GR K_MediaBox); congruence.
    - intros i x' NE SEL. destruct (NTH i x' NE) as (x & NE' & ->). destruct (SEL1 i x NE' SEL) as (z & _ & V1). eexists. apply Tu_int. apply At_own. cbn [leaf_page fst snd]. unfold g. rewrite V1. apply dget_dset_eq. }
  exists d2, b2, d3, b3. split; [exact E2|]. split; [exact E3|]. destruct (S2 d2 b2 E2) as (_ & [ED2 D2 SEL2 OTH2] & _).
  intros n N. assert (DEC : (exists i x, nth_error (leaves t) i = Some x /\ selected pgs i /\ leaf_num x = n) \/ (forall i x, nth_error (leaves t) i = Some x -> selected pgs i -> leaf_num x <> n)).
  { destruct (in_dec Z.eq_dec n (map (fun x => leaf_num (snd x)) (picked pgs t))) as [I|NI].
    - left. apply in_map_iff in I. destruct I as ([i x] & E0 & I). destruct (picked_any _ _ _ _ I) as (j & _ & NE & SEL). exists j, x. auto.
    - right. intros i x NE SEL E0. apply NI. apply in_map_iff. exists (Z.of_nat i, x). split; [auto|]. now apply picked_in. }
  destruct DEC as [(i & x & NE & SEL & <-)|NS].
  - destruct (SEL3 i x NE SEL) as (z & T & V3). destruct (SEL1 i x NE SEL) as (z' & T' & V1). rewrite (turned_fun _ _ _ _ T' T) in V1.
    assert (GX : g (leaf_num x) (leaf_page x) = dset K_Rotate (PInt ((z + a) mod 360)) (leaf_page x)) by (unfold g; rewrite V1; reflexivity).
    destruct (SEL2 i (leaf_ref x, g (leaf_num x) (leaf_page x), snd x)) as (w & T2 & V2); [rewrite LR, nth_error_map, NE; reflexivity|auto|].
    rewrite NUM in V2. cbn [leaf_page fst snd] in V2. rewrite GX, dset_dset in V2.
    assert (w = (z + a) mod 360). { eapply turned_fun; [exact T2|]. apply Tu_int, At_own. cbn [leaf_page fst snd]. rewrite GX. apply dget_dset_eq. }
    subst w. rewrite V2, V3. do 3 f_equal. rewrite Zplus_mod_idemp_l. f_equal. f_equal. lia.
  - rewrite OTH3 by auto. rewrite <- (OTH1 n N NS). apply OTH2; [auto|]. intros i x' NE SEL. destruct (NTH i x' NE) as (x & NE' & ->). rewrite NUM. eauto.
Qed.
End WithZlib.
