(** DynamicOneDimensionalArray used only through append and delete-of-the-last-position is a plain sequence:
    no holes ever appear, so index i holds the i-th element. Used by the heap and graph models. *)
From Verif Require Import Base ArraysModel ArraysProofs.

Section Packed.
  Context {A : Type}.
  Definition packed (d : doda A) (l : list A) : Prop :=
    doda_inv d /\ content (d_data d) = l /\ d_last d = len l - 1.

  Lemma content_full (a : list (option A)) : len (content a) = len a -> a = map Some (content a).
  Proof.
    induction a as [|[x|] a IH]; intros H; [reflexivity| |].
    - change (content (Some x :: a)) with (x :: content a) in *. rewrite !len_cons in H. simpl. f_equal. apply IH. lia.
    - change (content (None :: a)) with (content a) in *. rewrite len_cons in H. pose proof (content_length_le a). lia.
  Qed.
  Lemma packed_prefix d l : packed d l -> firstn (length l) (d_data d) = map Some l.
  Proof.
    intros (I & E & L). pose proof (inv_content_firstn d I) as C. rewrite L, E in C.
    replace (Z.to_nat (len l - 1 + 1)) with (length l) in C by (unfold len; lia).
    rewrite <- C at 2. apply content_full. rewrite C. pose proof (di_last _ I). pose proof (di_size _ I).
    unfold len in *. rewrite firstn_length. lia.
  Qed.
  Lemma packed_get d l i x : packed d l -> nth_error l i = Some x -> doda_get d (Z.of_nat i) = Ret (Some x).
  Proof.
    intros P Hx. assert (Hi : (i < length l)%nat) by (apply nth_error_Some; congruence).
    pose proof (packed_prefix d l P) as F. destruct P as (I & E & L). pose proof (di_last _ I) as Hl. pose proof (di_size _ I) as Hs.
    unfold len in L. unfold doda_get. destruct (Z.leb_spec (d_size d) (Z.of_nat i)); [lia|]. destruct (Z.ltb_spec (Z.of_nat i) 0); [lia|].
    simpl. rewrite (lget_ok _ None) by lia. f_equal. unfold zn. rewrite Nat2Z.id.
    rewrite <- (firstn_skipn (length l) (d_data d)), F, app_nth1 by (rewrite map_length; lia).
    apply nth_error_nth. apply (map_nth_error Some _ _ Hx).
  Qed.
  Lemma packed_append d l x : packed d l -> exists d', doda_append d x = Ret d' /\ packed d' (l ++ [x]).
  Proof.
    intros (I & E & L). destruct (doda_append_spec d x I) as (d' & H & I' & Ec & _ & _ & Hn & (_ & Hl) & _).
    exists d'. split; [exact H|]. split; [exact I'|]. split; [rewrite Ec, E; reflexivity|].
    pose proof (di_num _ I) as N. rewrite E in N. rewrite len_app. change (len [x]) with 1. lia.
  Qed.
  Lemma packed_pop d l x : packed d (l ++ [x]) -> exists d', doda_delete d (len l) = Ret d' /\ packed d' l.
  Proof.
    intros P. assert (G := packed_get d (l ++ [x]) (length l) x P). rewrite nth_error_app2, Nat.sub_diag in G by lia. specialize (G eq_refl).
    pose proof (packed_prefix _ _ P) as F. destruct P as (I & E & L).
    pose proof (doda_delete_spec d (len l) I) as S. unfold len in S at 1. rewrite G in S.
    destruct S as (d' & l1 & l2 & Hd & I' & C1 & C2 & C3 & _ & _ & Hn & (_ & Hl) & _).
    rewrite app_length in F. simpl in F. 
    assert (El : l1 = l).
    { rewrite C2. unfold len. rewrite Nat2Z.id. assert (F' : firstn (length l) (d_data d) = map Some l).
      { replace (length l) with (Nat.min (length l) (length l + 1)) by lia. rewrite <- firstn_firstn, F, map_app.
        rewrite firstn_app, map_length, Nat.sub_diag, firstn_O, app_nil_r, firstn_all2; [reflexivity|rewrite map_length; lia]. }
      rewrite F'. apply content_map_some. }
    exists d'. split; [exact Hd|]. split; [exact I'|].
    assert (l2 = []). { rewrite E, El in C1. apply app_inv_head in C1. inversion C1. reflexivity. }
    subst l2. rewrite app_nil_r in C3. split; [rewrite C3; exact El|].
    pose proof (di_num _ I) as N. rewrite E, len_app in N. rewrite len_app in L. change (len [x]) with 1 in *.
    destruct (Z.eqb_spec (d_last d) (len l)); lia.
  Qed.
  Lemma packed_empty ln ld : 0 < ln -> 2 * ln <= ld -> packed (doda_new_size 0 ln ld) [].
  Proof. intros. split; [apply doda_inv_new; lia|]. split; reflexivity. Qed.
  Lemma packed_list l ln ld : 0 < ln -> 2 * ln <= ld -> packed (doda_new_list l ln ld) l.
  Proof. intros. split; [apply doda_inv_list; lia|]. split; [apply content_map_some|reflexivity]. Qed.
End Packed.
