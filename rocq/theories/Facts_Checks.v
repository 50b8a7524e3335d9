(* Tests on concrete documents, used for the examples: each implies the property it tests *)
From Coq Require Import String.
From Verif Require Import PyBase Model_Filters Model_Objects Model_Filestruct Model_Docstruct Model_Api.
From Verif Require Import Spec_Objects Spec_Filestruct Spec_Docstruct Spec_Pages.
From Verif Require Import Facts_Base Facts_Obj Facts_Revision Facts_Doc Facts_Edit Facts_Pages Facts_Remove.
From Coq Require Import ZifyBool ZifyNat.

Section WithZlib.
Context {ZL : Zlib}.

(* the tree under a reference *)
Fixpoint all_some {A C} (f : A -> option C) (l : list A) : option (list C) :=
  match l with
  | [] => Some []
  | x :: r => match f x, all_some f r with Some y, Some t => Some (y :: t) | _, _ => None end
  end.
Fixpoint grow (fuel : nat) (d : doc) (o : obj) : option ptree :=
  match fuel, o with
  | S f, PRef g n =>
      if 0 <? n then
        match value d n with
        | Ok (PDict x) =>
            match dget K_Type x, dget K_Kids x with
            | Some (PStr ty), kids =>
                if beqb ty K_Page then Some (Leaf o x)
                else if beqb ty K_Pages then
                  match kids with
                  | Some (PList l) => match all_some (grow f d) l with Some k => Some (Node o x k) | None => None end
                  | _ => None
                  end
                else None
            | _, _ => None
            end
        | _ => None
        end
      else None
  | _, _ => None
  end.
Lemma grow_holds f : forall d o t, grow f d o = Some t -> holds d t /\ tref t = o.
Proof.
  induction f as [|f IH]; intros d o t; cbn [grow]; [discriminate|]. destruct o; try discriminate. destruct (0 <? num) eqn:N; [|discriminate].
  destruct (value d num) as [v| |] eqn:V; try discriminate. destruct v; try discriminate. destruct (dget K_Type d0) as [ty|] eqn:T; [|discriminate]. destruct ty; try discriminate.
  assert (P : points_at d (PRef gen num) num (PDict d0)) by (exists gen; split; [auto|split; [lia|auto]]).
  destruct (beqb s K_Page) eqn:E1; [intro E; injection E as <-|destruct (beqb s K_Pages) eqn:E2; [|discriminate]].
  - apply beqb_eq in E1. subst s. split; [eapply Ho_leaf; eauto|reflexivity].
  - apply beqb_eq in E2. subst s. destruct (dget K_Kids d0) as [k|] eqn:K; [|discriminate]. destruct k; try discriminate. destruct (all_some (grow f d) l) as [ks|] eqn:A; [|discriminate]. intro E. injection E as <-.
    assert (H : Forall (holds d) ks /\ map tref ks = l).
    { clear K. revert ks A. induction l as [|x l IHl]; intros ks; cbn [all_some]; [intro E; injection E as <-; split; [constructor|auto]|].
      destruct (grow f d x) as [y|] eqn:G; [|discriminate]. destruct (all_some (grow f d) l) as [r|]; [|discriminate]. intro E. injection E as <-. destruct (IH d x y G) as [H1 H2]. destruct (IHl r eq_refl) as [H3 H4]. split; [constructor; auto|]. cbn [map]. congruence. }
    destruct H as [H1 <-]. split; [|reflexivity]. eapply Ho_node; eauto.
Qed.
Fixpoint soundb (t : ptree) : bool :=
  match t with
  | Leaf _ _ => true
  | Node o nd kids =>
      (match dget K_Count nd with Some (PInt z) => z =? Z.of_nat (length (leaves t)) | _ => false end)
      && forallb (fun k => match dget K_Parent (tdict k) with Some (PRef _ n) => n =? tnum t | _ => false end) kids
      && forallb soundb kids
  end.
Lemma soundb_ok t : soundb t = true -> sound t.
Proof.
  revert t. apply (ptree_rect2 (fun t => soundb t = true -> sound t)); [constructor|]. intros o nd kids IH. cbn [soundb]. rewrite !andb_true_iff. intros [[C P] S]. rewrite forallb_forall in P, S. constructor.
  - destruct (dget K_Count nd) as [c|]; [|discriminate]. destruct c; try discriminate. apply Z.eqb_eq in C. now subst.
  - apply Forall_forall. intros k I. specialize (P k I). unfold child_of. destruct (dget K_Parent (tdict k)) as [c|]; [|discriminate]. destruct c; try discriminate. apply Z.eqb_eq in P. rewrite <- P. eauto.
  - rewrite Forall_forall in *. auto.
Qed.
Fixpoint nodupb (l : list Z) : bool := match l with [] => true | x :: r => negb (memz x r) && nodupb r end.
Lemma nodupb_ok l : nodupb l = true -> NoDup l.
Proof. induction l as [|x l IH]; cbn [nodupb]; [constructor|]. rewrite andb_true_iff, negb_true_iff. intros [H1 H2]. constructor; [now apply memz_out|auto]. Qed.

(* the catalog *)
Definition catalog_of (d : doc) : option (Z * dict) :=
  match value d 0 with
  | Ok (PDict t) => match dget K_Root t with
                    | Some (PRef _ n) => if 0 <? n then match value d n with Ok (PDict c) => Some (n, c) | _ => None end else None
                    | _ => None
                    end
  | _ => None
  end.
Lemma catalog_of_ok d n c : catalog_of d = Some (n, c) -> catalog_at d n c /\ forall m e, catalog_at d m e -> m = n.
Proof.
  unfold catalog_of. destruct (value d 0) as [v| |] eqn:V; try discriminate. destruct v; try discriminate. destruct (dget K_Root d0) as [r|] eqn:R; [|discriminate]. destruct r; try discriminate.
  destruct (0 <? num) eqn:N; [|discriminate]. destruct (value d num) as [v| |] eqn:V2; try discriminate. destruct v; try discriminate. intro E. injection E as <- <-. split.
  - exists d0, (PRef gen num). split; [auto|]. split; [auto|]. exists gen. split; [auto|]. split; [lia|auto].
  - intros m e (t & r & V' & R' & (g & -> & _)). congruence.
Qed.
Definition is_type (k : bytes) (x : dict) : bool := match dget K_Type x with Some (PStr s) => beqb s k | _ => false end.
Definition plant (fuel : nat) (d : doc) : option ptree :=
  match catalog_of d with
  | Some (n, c) => if is_type K_Page c || is_type K_Pages c then None
                   else match dget K_Pages c with
                        | Some o => match grow fuel d o with Some (Node o nd kids) => Some (Node o nd kids) | _ => None end
                        | None => None
                        end
  | None => None
  end.
Lemma plant_ok f d t : plant f d = Some t -> has_tree d t.
Proof.
  unfold plant. destruct (catalog_of d) as [[n c]|] eqn:C; [|discriminate]. destruct (is_type K_Page c || is_type K_Pages c) eqn:T; [discriminate|]. apply orb_false_iff in T. destruct T as [T1 T2].
  destruct (dget K_Pages c) as [o|] eqn:P; [|discriminate]. destruct (grow f d o) as [[|o' nd kids]|] eqn:G; try discriminate. intro E. injection E as <-.
  destruct (catalog_of_ok d n c C) as [CA _]. destruct (grow_holds f d o _ G) as [H R]. exists n, c. split; [auto|]. unfold is_type in *.
  split; [intro X; rewrite X in T1; discriminate|]. split; [intro X; rewrite X in T2; discriminate|]. split; [congruence|]. split; [auto|]. eauto.
Qed.
Definition wellb (fuel : nat) (d : doc) (t : ptree) : bool :=
  soundb t && (match dget K_Parent (tdict t) with None => true | _ => false end) && nodupb (map leaf_num (leaves t)) && nodupb (node_nums t).
Lemma wellb_ok f d t : plant f d = Some t -> wellb f d t = true -> well_formed d t.
Proof.
  intros P. unfold wellb. rewrite !andb_true_iff. intros [[[S PR] N1] N2]. split; [eapply plant_ok; eauto|]. split; [now apply soundb_ok|]. split; [destruct (dget K_Parent (tdict t)); [discriminate|auto]|]. split; now apply nodupb_ok.
Qed.

(* reachable references *)
Fixpoint local_refs (o : obj) : list ref :=
  match o with
  | PRef g n => [(g, n)]
  | PList l => flat_map local_refs l
  | PDict x => flat_map (fun kv => if beqb (fst kv) K_Parent || beqb (fst kv) K_P then [] else local_refs (snd kv)) x
  | _ => []
  end.
Definition all_in (l m : list ref) : bool := forallb (fun r => Model_Docstruct.ref_in r m) l.
Lemma all_in_ok l m : all_in l m = true -> incl l m.
Proof. unfold all_in. rewrite forallb_forall. intros H r I. apply ref_in_spec. auto. Qed.
Definition closedb (d : doc) (s : list ref) : bool :=
  forallb (fun r => (0 <? snd r) && match value d (snd r) with Ok v => all_in (local_refs v) s | _ => false end) s.
Lemma closed_reach d s : closedb d s = true -> forall o r, reaches d o r -> incl (local_refs o) s -> In r s.
Proof.
  unfold closedb. rewrite forallb_forall. intros H o r RE. induction RE as [g n|o o' r F RE IH]; intro I; [apply I; now left|]. apply IH. destruct F as [x k v Ix K1 K2|l v Il|g n v N V].
  - intros q Iq. apply I. cbn [local_refs]. apply in_flat_map. exists (k, v). split; [auto|]. cbn [fst snd]. destruct (beqb k K_Parent) eqn:E1; [apply beqb_eq in E1; contradiction|]. destruct (beqb k K_P) eqn:E2; [apply beqb_eq in E2; contradiction|]. exact Iq.
  - intros q Iq. apply I. cbn [local_refs]. apply in_flat_map. eauto.
  - assert (X : In (g, n) s) by (apply I; now left). specialize (H _ X). cbn [snd] in H. rewrite V in H. apply andb_true_iff in H. now apply all_in_ok.
Qed.
Definition tidyb (fuel : nat) (d : doc) (t : ptree) (s : list ref) : bool :=
  closedb d s && all_in (flat_map (fun x => local_refs (leaf_ref x)) (leaves t)) s
  && (match catalog_of d with
      | Some (c, _) => forallb (fun r => negb (memz (snd r) (node_nums t)) && negb (snd r =? c)
          && forallb (fun y => match leaf_ref y with PRef g n => negb (n =? snd r) || (g =? fst r) | _ => false end) (leaves t)) s
      | None => false
      end)
  && forallb (fun x => match dependencies fuel d (leaf_ref x) with Ok _ => true | _ => false end) (leaves t).
Lemma tidyb_ok f d t s : coherent d -> tidyb f d t s = true -> tidy d t /\ sane d t.
Proof.
  intros CO. unfold tidyb. rewrite !andb_true_iff. intros [[[C L] T] D]. destruct (catalog_of d) as [[c cat]|] eqn:CA; [|discriminate]. destruct (catalog_of_ok d c cat CA) as [_ CU].
  rewrite forallb_forall in T, D. apply all_in_ok in L.
  assert (IN : forall x r, In x (leaves t) -> reaches d (leaf_ref x) r -> In r s). { intros x r I RE. apply (closed_reach d s C (leaf_ref x) r RE). intros q Iq. apply L. apply in_flat_map. eauto. }
  assert (POS : forall r, In r s -> 0 < snd r /\ exists v, value d (snd r) = Ok v). { unfold closedb in C. rewrite forallb_forall in C. intros r I. specialize (C r I). apply andb_true_iff in C. destruct C as [C1 C2]. split; [lia|]. destruct (value d (snd r)); try discriminate. eauto. }
  split.
  - intros x g n I RE. specialize (IN x _ I RE). specialize (POS _ IN). specialize (T _ IN). cbn [snd fst] in *. rewrite !andb_true_iff, !negb_true_iff in T. destruct T as [[T1 T2] T3]. split; [tauto|]. split; [now apply memz_out|]. split.
    + intros m e CM. rewrite (CU m e CM). lia.
    + rewrite forallb_forall in T3. intros y Iy E. specialize (T3 y Iy). unfold leaf_num in E. destruct (leaf_ref y); try discriminate. subst n. assert (gen = g) by lia. congruence.
  - intros x I. assert (RS : resolved d (leaf_ref x)). { intros g n RE. destruct (POS _ (IN x _ I RE)) as [H1 H2]. cbn [snd] in *. split; [lia|auto]. }
    split; [|auto]. specialize (D x I). destruct (dependencies f d (leaf_ref x)) as [[l d1]| |] eqn:E; try discriminate. apply (deps_spec f d (leaf_ref x) l d1 CO (resolved_nonneg _ _ RS) E).
Qed.
End WithZlib.
