(* Induction principle on values; serialize unfolded *)
From Coq Require Import ZifyBool ZifyNat.
From Verif Require Import PyBase Model_Filters Model_Objects Facts_Base.

Section ObjInd.
  Variable P : obj -> Prop.
  Hypothesis Hn : P PNone.
  Hypothesis Hb : forall b, P (PBool b).
  Hypothesis Hi : forall z, P (PInt z).
  Hypothesis Hr : forall m e, P (PReal m e).
  Hypothesis Hs : forall s, P (PStr s).
  Hypothesis Hy : forall s, P (PBytes s).
  Hypothesis Hf : forall g n, P (PRef g n).
  Hypothesis Hl : forall l, Forall P l -> P (PList l).
  Hypothesis Hd : forall d, Forall (fun kv => P (snd kv)) d -> P (PDict d).
  Hypothesis Ht : forall d s e, Forall (fun kv => P (snd kv)) d -> P (PStream d s e).
  Fixpoint obj_ind' (o : obj) : P o :=
    let fix all (l : list obj) : Forall P l :=
      match l with [] => Forall_nil _ | x :: r => Forall_cons _ (obj_ind' x) (all r) end in
    let fix alld (d : dict) : Forall (fun kv => P (snd kv)) d :=
      match d with
      | [] => Forall_nil _
      | kv :: r => Forall_cons _ (match kv as kv return P (snd kv) with (_, v) => obj_ind' v end) (alld r)
      end in
    match o with
    | PNone => Hn
    | PBool b => Hb b
    | PInt z => Hi z
    | PReal m e => Hr m e
    | PStr s => Hs s
    | PBytes s => Hy s
    | PRef g n => Hf g n
    | PList l => Hl l (all l)
    | PDict d => Hd d (alld d)
    | PStream d s e => Ht d s e (alld d)
    end.
End ObjInd.

Definition ser_entries (depth : nat) := fix entries (d : dict) : res bytes :=
  match d with
  | [] => Ok []
  | (k, v) :: r =>
      let* value := ser (S depth) v in
      let* name := ascii k in
      let* tl := entries r in
      Ok (repeat 32 depth ++ name ++ [32] ++ value ++ [32] ++ tl)
  end.
Fixpoint ser_items (l : list obj) : res bytes :=
  match l with
  | [] => Ok []
  | v :: r => let* value := ser 0 v in let* tl := ser_items r in Ok (value ++ [32] ++ tl)
  end.

Lemma ser_dict depth d :
  ser depth (PDict d) = let* b := ser_entries depth d in Ok ([60; 60; 32] ++ b ++ repeat 32 depth ++ [62; 62]).
Proof.
  reflexivity.
Qed.

Lemma ser_list depth l :
  ser depth (PList l) = let* b := ser_items l in Ok ([91; 32] ++ b ++ [93]).
Proof.
  reflexivity.
Qed.

Definition stream_text (enc : option bytes) : bytes :=
  match enc with
  | Some (x :: c) => W_nl_stream ++ (x :: c) ++ W_nl_endstream
  | _ => []
  end.
Lemma ser_stream depth d s enc :
  ser depth (PStream d s enc) =
  let* b := ser_entries depth d in Ok ([60; 60; 32] ++ b ++ repeat 32 depth ++ [62; 62] ++ stream_text enc).
Proof.
  reflexivity.
Qed.

(* ---------- dictionaries ---------- *)
Lemma dget_dset_eq k v d : dget k (dset k v d) = Some v.
Proof. induction d as [|[k' v'] d IH]; cbn; [rewrite beqb_refl; auto|]. destruct (beqb k k') eqn:E; cbn; rewrite E; auto. Qed.

Lemma dget_dset_neq k k' v d : k <> k' -> dget k (dset k' v d) = dget k d.
Proof.
  intros N. induction d as [|[k2 v2] d IH]; cbn.
  - apply beqb_neq in N. rewrite N. auto.
  - destruct (beqb k' k2) eqn:E; cbn.
    + apply beqb_eq in E. subst. apply beqb_neq in N. rewrite N. auto.
    + rewrite IH. auto.
Qed.

Lemma dget_dset k k' v d : dget k (dset k' v d) = if beqb k k' then Some v else dget k d.
Proof.
  destruct (beqb k k') eqn:E.
  - apply beqb_eq in E. subst. apply dget_dset_eq.
  - apply beqb_neq in E. apply dget_dset_neq; auto.
Qed.

Lemma dget_In k d v : dget k d = Some v -> In (k, v) d.
Proof.
  induction d as [|[k' v'] d IH]; cbn; [discriminate|].
  destruct (beqb k k') eqn:E; auto. apply beqb_eq in E. intros H. inversion H. subst. auto.
Qed.

Lemma dget_None k d : dget k d = None <-> ~ In k (map fst d).
Proof.
  induction d as [|[k' v'] d IH]; cbn; [tauto|].
  destruct (beqb k k') eqn:E.
  - apply beqb_eq in E. subst. split; [discriminate|]. tauto.
  - apply beqb_neq in E. rewrite IH. split; [intros H [H'|H']; subst; auto; congruence|tauto].
Qed.

Lemma In_dget k v d : NoDup (map fst d) -> In (k, v) d -> dget k d = Some v.
Proof.
  induction d as [|[k' v'] d IH]; cbn; [tauto|]. intros N. inversion N; subst. intros [H|H].
  - inversion H; subst. rewrite beqb_refl. auto.
  - destruct (beqb k k') eqn:E; auto. apply beqb_eq in E. subst. exfalso. apply H1.
    apply (in_map fst) in H. auto.
Qed.

Lemma dget_app k d1 d2 : dget k (d1 ++ d2) = match dget k d1 with Some v => Some v | None => dget k d2 end.
Proof. induction d1 as [|[k' v'] d IH]; cbn; auto. destruct (beqb k k'); auto. Qed.

Lemma dset_new k v d : dget k d = None -> dset k v d = d ++ [(k, v)].
Proof.
  induction d as [|[k' v'] d IH]; cbn; auto. destruct (beqb k k'); [discriminate|].
  intros H. rewrite IH; auto.
Qed.
