(** Facts about the ordered lists that model B-trees. *)

From Coq Require Import Sorting.Sorted.
From Verif Require Import ModelStore LemmasBase.

#[global] Arguments rowToItem : simpl never.
#[global] Arguments toRelationId : simpl never.

(** The order of items as a three-way comparison. *)
Definition icmp (a b : item) : comparison :=
  match it_rel a ?= it_rel b with
  | Eq => bytes_compare (it_key a) (it_key b)
  | c => c
  end.

Lemma lessItems_icmp a b : lessItems a b = match icmp a b with Lt => true | _ => false end.
Proof.
  unfold lessItems, icmp.
  destruct (Z.compare_spec (it_rel a) (it_rel b)) as [E|E|E].
  - rewrite E, Z.ltb_irrefl, Z.eqb_refl. reflexivity.
  - apply Z.ltb_lt in E. rewrite E. reflexivity.
  - destruct (it_rel a <? it_rel b) eqn:F; [apply Z.ltb_lt in F; lia|].
    destruct (it_rel a =? it_rel b) eqn:F'; [apply Z.eqb_eq in F'; lia|reflexivity].
Qed.

Lemma icmp_antisym a b : icmp b a = CompOpp (icmp a b).
Proof.
  unfold icmp. rewrite (Z.compare_antisym (it_rel a) (it_rel b)).
  destruct (it_rel a ?= it_rel b); simpl; try reflexivity. apply bytes_compare_antisym.
Qed.

Lemma icmp_eq a b : icmp a b = Eq <-> it_rel a = it_rel b /\ it_key a = it_key b.
Proof.
  unfold icmp. split.
  - destruct (Z.compare_spec (it_rel a) (it_rel b)) as [E|E|E]; try discriminate.
    intros H. apply bytes_compare_eq in H. auto.
  - intros [-> ->]. rewrite Z.compare_refl. apply bytes_compare_refl.
Qed.

Lemma icmp_refl a : icmp a a = Eq.
Proof. apply icmp_eq. auto. Qed.

Lemma same_item_icmp a b : same_item a b = match icmp a b with Eq => true | _ => false end.
Proof.
  unfold same_item. rewrite !lessItems_icmp, (icmp_antisym a b).
  destruct (icmp a b); reflexivity.
Qed.

Lemma icmp_trans a b c : icmp a b = Lt -> icmp b c = Lt -> icmp a c = Lt.
Proof.
  unfold icmp.
  destruct (Z.compare_spec (it_rel a) (it_rel b)) as [E|E|E]; try discriminate;
  destruct (Z.compare_spec (it_rel b) (it_rel c)) as [F|F|F]; try discriminate.
  - intros H1 H2. rewrite E, F, Z.compare_refl.
    pose proof (bytes_compare_trans (it_key a) (it_key b) (it_key c) H1 H2) as H. exact H.
  - intros _ _. rewrite (proj2 (Z.compare_lt_iff _ _)); [reflexivity|lia].
  - intros _ _. rewrite (proj2 (Z.compare_lt_iff _ _)); [reflexivity|lia].
  - intros _ _. rewrite (proj2 (Z.compare_lt_iff _ _)); [reflexivity|lia].
Qed.

Lemma icmp_eq_l a b c : icmp a b = Eq -> icmp a c = icmp b c.
Proof. intros H. apply icmp_eq in H as [H1 H2]. unfold icmp. now rewrite H1, H2. Qed.

Lemma icmp_eq_r a b c : icmp a b = Eq -> icmp c a = icmp c b.
Proof. intros H. apply icmp_eq in H as [H1 H2]. unfold icmp. now rewrite H1, H2. Qed.

Definition ilt (a b : item) : Prop := icmp a b = Lt.

(** Trees are sorted strictly. *)
Definition sorted (t : tree) : Prop := StronglySorted ilt t.

Lemma sorted_nil : sorted [].
Proof. constructor. Qed.

Lemma sorted_inv x t : sorted (x :: t) -> sorted t /\ forall y, In y t -> icmp x y = Lt.
Proof. intros H. inversion H as [|? ? H1 H2]; subst. split; [exact H1|]. intros y Hy. exact (proj1 (Forall_forall _ _) H2 y Hy). Qed.

Lemma sorted_cons x t : sorted t -> (forall y, In y t -> icmp x y = Lt) -> sorted (x :: t).
Proof. intros H1 H2. constructor; [exact H1|]. apply Forall_forall. exact H2. Qed.

Lemma sorted_unique t a b : sorted t -> In a t -> In b t -> icmp a b = Eq -> a = b.
Proof.
  induction t as [|x t IH]; [intros _ []|].
  intros H Ha Hb E. apply sorted_inv in H as [H1 H2].
  destruct Ha as [->|Ha], Hb as [->|Hb]; auto.
  - rewrite (H2 _ Hb) in E. discriminate.
  - pose proof (H2 _ Ha) as L. rewrite icmp_antisym, E in L. discriminate.
Qed.

Lemma sorted_ext t1 t2 : sorted t1 -> sorted t2 -> (forall x, In x t1 <-> In x t2) -> t1 = t2.
Proof.
  revert t2. induction t1 as [|a t1 IH]; intros [|b t2] S1 S2 H.
  - reflexivity.
  - exfalso. apply (proj2 (H b)). now left.
  - exfalso. apply (proj1 (H a)). now left.
  - apply sorted_inv in S1 as [S1 L1]. apply sorted_inv in S2 as [S2 L2].
    assert (a = b) as ->.
    { destruct (proj1 (H a) (or_introl eq_refl)) as [E|Ha]; [now symmetry|].
      destruct (proj2 (H b) (or_introl eq_refl)) as [E|Hb]; [exact E|].
      pose proof (L1 _ Hb) as A. pose proof (L2 _ Ha) as B. rewrite icmp_antisym, A in B. discriminate. }
    f_equal. apply IH; try assumption. intros x. split; intros Hx.
    + destruct (proj1 (H x) (or_intror Hx)) as [<-|Hx']; [|exact Hx'].
      pose proof (L1 _ Hx) as A. rewrite icmp_refl in A. discriminate.
    + destruct (proj2 (H x) (or_intror Hx)) as [<-|Hx']; [|exact Hx'].
      pose proof (L2 _ Hx) as A. rewrite icmp_refl in A. discriminate.
Qed.

Lemma sorted_filter f t : sorted t -> sorted (filter f t).
Proof.
  induction t as [|x t IH]; simpl; [auto|]. intros H. apply sorted_inv in H as [H1 H2].
  destruct (f x); [|auto]. apply sorted_cons; [auto|].
  intros y Hy. apply filter_In in Hy as [Hy _]. auto.
Qed.

Lemma t_get_Some t it x : t_get t it = Some x -> In x t /\ icmp x it = Eq.
Proof.
  induction t as [|y t IH]; simpl; [discriminate|].
  rewrite same_item_icmp. destruct (icmp y it) eqn:E.
  - intros [= <-]. auto.
  - intros H. apply IH in H as [? ?]. auto.
  - intros H. apply IH in H as [? ?]. auto.
Qed.

Lemma t_get_None t it : t_get t it = None <-> forall x, In x t -> icmp x it <> Eq.
Proof.
  induction t as [|y t IH]; simpl.
  - split; [intros _ x []|reflexivity].
  - rewrite same_item_icmp. destruct (icmp y it) eqn:E.
    + split; [discriminate|]. intros H. exfalso. apply (H y); auto.
    + rewrite IH. split; intros H x; [intros [<-|Hx]; [congruence|auto]|auto].
    + rewrite IH. split; intros H x; [intros [<-|Hx]; [congruence|auto]|auto].
Qed.

Lemma t_get_In t it x : sorted t -> In x t -> icmp x it = Eq -> t_get t it = Some x.
Proof.
  intros S Hx E. destruct (t_get t it) as [y|] eqn:G.
  - apply t_get_Some in G as [Hy Ey]. f_equal. apply (sorted_unique t); try assumption.
    rewrite (icmp_eq_l _ _ _ Ey), icmp_antisym, E. reflexivity.
  - exfalso. exact (proj1 (t_get_None _ _) G x Hx E).
Qed.

Lemma t_has_true t it : t_has t it = true <-> exists x, In x t /\ icmp x it = Eq.
Proof.
  unfold t_has. destruct (t_get t it) as [y|] eqn:G.
  - split; [|reflexivity]. intros _. exists y. now apply t_get_Some.
  - split; [discriminate|]. intros (x & Hx & E). exfalso. exact (proj1 (t_get_None _ _) G x Hx E).
Qed.

Lemma t_has_false t it : t_has t it = false <-> forall x, In x t -> icmp x it <> Eq.
Proof.
  rewrite <- t_get_None. unfold t_has. destruct (t_get t it); split; congruence.
Qed.

Lemma insert_In t it x :
  sorted t -> In x (t_replace_or_insert t it) <-> x = it \/ (In x t /\ icmp x it <> Eq).
Proof.
  induction t as [|y t IH]; intros S; simpl.
  - split; [intros [->|[]]; auto|intros [->|[[] _]]; auto].
  - apply sorted_inv in S as [S L]. rewrite !lessItems_icmp, (icmp_antisym y it).
    destruct (icmp y it) eqn:E; simpl.
    + split.
      * intros [->|Hx]; [auto|]. right. split; [auto|].
        rewrite <- (icmp_eq_r _ _ _ E), icmp_antisym, (L _ Hx). discriminate.
      * intros [->|[[->|Hx] N]]; auto. congruence.
    + rewrite (IH S). split.
      * intros [->|[->|[Hx N]]]; auto. right. split; [auto|]. congruence.
      * intros [->|[[->|Hx] N]]; auto.
    + split.
      * intros [->|[->|Hx]]; auto.
        -- right. split; [auto|]. congruence.
        -- right. split; [auto|]. intros F.
           pose proof (L _ Hx) as A. rewrite (icmp_eq_r _ _ _ F), E in A. discriminate.
      * intros [->|[[->|Hx] N]]; auto.
Qed.

Lemma insert_sorted t it : sorted t -> sorted (t_replace_or_insert t it).
Proof.
  induction t as [|y t IH]; intros S; simpl.
  - apply sorted_cons; [constructor|]. intros y [].
  - pose proof S as S0. apply sorted_inv in S as [S L].
    rewrite !lessItems_icmp, (icmp_antisym y it).
    destruct (icmp y it) eqn:E; simpl.
    + apply sorted_cons; [exact S|]. intros z Hz. rewrite <- (icmp_eq_l _ _ _ E). auto.
    + apply sorted_cons; [auto|]. intros z Hz.
      apply (insert_In _ _ _ S) in Hz as [->|[Hz _]]; auto.
    + apply sorted_cons; [exact S0|]. intros z Hz.
      assert (icmp it y = Lt) as F by (rewrite icmp_antisym, E; reflexivity).
      destruct Hz as [<-|Hz]; [exact F|]. eapply icmp_trans; [exact F|auto].
Qed.

Lemma delete_In t it x :
  sorted t -> In x (fst (t_delete t it)) <-> In x t /\ icmp x it <> Eq.
Proof.
  induction t as [|y t IH]; intros S; simpl; [tauto|].
  apply sorted_inv in S as [S L]. rewrite same_item_icmp.
  destruct (icmp y it) eqn:E; simpl.
  - split.
    + intros Hx. split; [auto|]. rewrite <- (icmp_eq_r _ _ _ E), icmp_antisym, (L _ Hx). discriminate.
    + intros [[->|Hx] N]; [congruence|exact Hx].
  - destruct (t_delete t it) as [t' ok]; simpl in *. rewrite (IH S). split.
    + intros [->|[Hx N]]; split; auto. congruence.
    + intros [[->|Hx] N]; auto.
  - destruct (t_delete t it) as [t' ok]; simpl in *. rewrite (IH S). split.
    + intros [->|[Hx N]]; split; auto. congruence.
    + intros [[->|Hx] N]; auto.
Qed.

Lemma delete_sorted t it : sorted t -> sorted (fst (t_delete t it)).
Proof.
  induction t as [|y t IH]; intros S; simpl; [constructor|].
  pose proof S as S0. apply sorted_inv in S as [S L]. destruct (same_item y it); [exact S|].
  specialize (IH S). pose proof (fun z => delete_In t it z S) as D.
  destruct (t_delete t it) as [t' ok]; simpl in *.
  apply sorted_cons; [exact IH|]. intros z Hz. apply D in Hz as [Hz _]. auto.
Qed.

Lemma delete_ok t it : snd (t_delete t it) = t_has t it.
Proof.
  unfold t_has. induction t as [|y t IH]; simpl; [reflexivity|].
  destruct (same_item y it); [reflexivity|].
  destruct (t_delete t it); simpl in *. exact IH.
Qed.

Lemma delete_missing t it : t_has t it = false -> fst (t_delete t it) = t.
Proof.
  intros H. rewrite t_has_false in H. induction t as [|y t IH]; simpl; [reflexivity|].
  rewrite same_item_icmp. destruct (icmp y it) eqn:E.
  - exfalso. apply (H y); [now left|exact E].
  - destruct (t_delete t it); simpl in *. f_equal. apply IH. intros x Hx. apply H. now right.
  - destruct (t_delete t it); simpl in *. f_equal. apply IH. intros x Hx. apply H. now right.
Qed.

Lemma insert_length t it : sorted t ->
  length (t_replace_or_insert t it) = (if t_has t it then length t else S (length t)).
Proof.
  unfold t_has. induction t as [|y t IH]; intros S; simpl; [reflexivity|].
  apply sorted_inv in S as [S L].
  rewrite !lessItems_icmp, same_item_icmp, (icmp_antisym y it).
  destruct (icmp y it) eqn:E; simpl.
  - reflexivity.
  - rewrite (IH S). destruct (t_get t it); reflexivity.
  - destruct (t_get t it) as [z|] eqn:G; [|reflexivity].
    apply t_get_Some in G as [Hz Ez]. pose proof (L _ Hz) as A.
    rewrite (icmp_eq_r _ _ _ Ez), E in A. discriminate.
Qed.

Lemma delete_length t it : t_has t it = true -> S (length (fst (t_delete t it))) = length t.
Proof.
  unfold t_has. induction t as [|y t IH]; simpl; [discriminate|].
  destruct (same_item y it); [reflexivity|].
  destruct (t_delete t it); simpl in *. intros H. now rewrite (IH H).
Qed.

(** Items of other relations are not affected. *)
Definition of_rel (rel : Z) (t : tree) : list item := filter (fun it => it_rel it =? rel) t.

Lemma insert_other t it rel : it_rel it <> rel -> of_rel rel (t_replace_or_insert t it) = of_rel rel t.
Proof.
  intros N. unfold of_rel. apply Z.eqb_neq in N.
  induction t as [|y t IH]; simpl; [now rewrite N|].
  rewrite !lessItems_icmp, (icmp_antisym y it). destruct (icmp y it) eqn:E; simpl.
  - apply icmp_eq in E as [E _]. now rewrite N, E, N.
  - now rewrite IH.
  - now rewrite N.
Qed.

Lemma delete_other t it rel : it_rel it <> rel -> of_rel rel (fst (t_delete t it)) = of_rel rel t.
Proof.
  intros N. unfold of_rel. apply Z.eqb_neq in N.
  induction t as [|y t IH]; simpl; [reflexivity|].
  rewrite same_item_icmp. destruct (icmp y it) eqn:E; simpl.
  - apply icmp_eq in E as [E _]. now rewrite E, N.
  - destruct (t_delete t it); simpl in *. now rewrite IH.
  - destruct (t_delete t it); simpl in *. now rewrite IH.
Qed.

Lemma of_rel_In rel t it : In it (of_rel rel t) <-> In it t /\ it_rel it = rel.
Proof. unfold of_rel. rewrite filter_In, Z.eqb_eq. reflexivity. Qed.

(** Scanning. *)
Lemma filter_all_false {A} (f : A -> bool) l : (forall x, In x l -> f x = false) -> filter f l = [].
Proof.
  induction l as [|a l IH]; simpl; intros H; [reflexivity|].
  rewrite (H a (or_introl eq_refl)). auto.
Qed.

Lemma scan_stop_sorted rel (mx : option item) t :
  sorted t -> (forall m, mx = Some m -> it_rel m = rel) ->
  forall pred l,
  scanItems rel mx pred t = Some l ->
  (forall it, In it t -> rel <= it_rel it) ->
  l = filter (fun it =>
        (it_rel it =? rel) &&
        match mx with Some m => negb (lessItems m it) | None => true end &&
        match pred with
        | None => true
        | Some (c, f) => match znth (it_row it) c with Some v => match f v with Some b => b | None => false end | None => false end
        end) t.
Proof.
  intros S Hm pred. induction t as [|y t IH]; simpl; intros l Hl Hrel.
  - now injection Hl as <-.
  - apply sorted_inv in S as [S L]. specialize (IH S).
    assert (forall it, In it t -> rel <= it_rel it) as Hrel' by auto.
    destruct (it_rel y =? rel) eqn:E; simpl in *.
    2:{ injection Hl as <-. apply Z.eqb_neq in E.
        symmetry. apply filter_all_false. intros z Hz. apply L in Hz.
        assert (it_rel z <> rel) as F.
        { unfold icmp in Hz. destruct (Z.compare_spec (it_rel y) (it_rel z)); try discriminate;
          specialize (Hrel y (or_introl eq_refl)); lia. }
        apply Z.eqb_neq in F. now rewrite F. }
    apply Z.eqb_eq in E.
    destruct mx as [m|]; simpl in *.
    + destruct (lessItems m y) eqn:F; simpl in *.
      * injection Hl as <-. symmetry. apply filter_all_false. intros z Hz. apply L in Hz.
        rewrite lessItems_icmp in F. destruct (icmp m y) eqn:F'; try discriminate.
        rewrite lessItems_icmp, (icmp_trans _ _ _ F' Hz). simpl. now rewrite andb_false_r.
      * destruct pred as [[c f]|].
        -- destruct (znth (it_row y) c) as [v|]; [|discriminate].
           destruct (f v) as [[|]|]; [|now apply IH|discriminate].
           destruct (scanItems rel (Some m) (Some (c, f)) t) as [l'|] eqn:G; [|discriminate].
           injection Hl as <-. f_equal. now apply IH.
        -- destruct (scanItems rel (Some m) None t) as [l'|] eqn:G; [|discriminate].
           injection Hl as <-. f_equal. now apply IH.
    + destruct pred as [[c f]|].
      * destruct (znth (it_row y) c) as [v|]; [|discriminate].
        destruct (f v) as [[|]|]; [|now apply IH|discriminate].
        destruct (scanItems rel None (Some (c, f)) t) as [l'|] eqn:G; [|discriminate].
        injection Hl as <-. f_equal. now apply IH.
      * destruct (scanItems rel None None t) as [l'|] eqn:G; [|discriminate].
        injection Hl as <-. f_equal. now apply IH.
Qed.
