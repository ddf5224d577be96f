(** The printed OneDimensionalSegmentTree: the whole picture. *)
From Coq Require Import Permutation Sorted.
From Verif Require Import Base ArraysProofs IntervalModel IntervalSpec FenwickProofs SegTreeProofs IntervalProofs NodeModel PrintModel4 PrintSpec3 PrintProofs9 PrintProofs10.
Import List IntervalModel.
Open Scope list_scope.

Lemma zinsert_perm x l : Permutation (zinsert x l) (x :: l).
Proof. induction l as [|y l IH]; [reflexivity|]. cbn [zinsert]. destruct (x <=? y); [reflexivity|]. rewrite IH. apply perm_swap. Qed.
Lemma zsort_perm l : Permutation (zsort l) l.
Proof. induction l as [|x l IH]; [reflexivity|]. cbn [zsort]. rewrite zinsert_perm. constructor. exact IH. Qed.
Lemma zsorted_sorted l : zsorted l -> Sorted Z.le l.
Proof. induction l as [|x l IH]; intros H; [constructor|]. destruct H as [H1 H2]. constructor; [apply IH, H2|]. destruct l; constructor. apply H1. left. reflexivity. Qed.
Lemma cut_elems one es : forall prev, cut one prev es = elems prev es ++ [opn (last es prev) (last es prev + one)].
Proof.
  induction es as [|e es IH]; intros prev; [reflexivity|]. cbn [cut elems]. rewrite IH. assert (E : last (e :: es) prev = last es e) by (destruct es as [|e' es']; [reflexivity|]; apply (last_default (e' :: es') prev e); discriminate).
  rewrite E. reflexivity.
Qed.
Lemma ends_perm segs : Permutation (concat (map (fun s => [fst s; snd s]) (map norm_seg segs))) (flat_map (fun s => [fst s; snd s]) segs).
Proof.
  induction segs as [|[a b] segs IH]; [reflexivity|]. cbn [map concat flat_map app fst snd]. unfold norm_seg at 1 2. cbn [fst snd].
  destruct (Z.le_ge_cases a b) as [H|H].
  - rewrite Z.min_l, Z.max_r by lia. do 2 constructor. exact IH.
  - rewrite Z.min_r, Z.max_l by lia. rewrite perm_swap. do 2 constructor. exact IH.
Qed.

Definition rowf (ns : list (Z * Z)) (n : inode) : ist_row := (n_left n, n_key n, option_map (map (fun k => nth k ns (0, 0))) (n_data n), n_right n).
Lemma lget_row {V} (a : list V) i v : lget a i = Ret v -> 0 <= row_no (len a) i /\ nth_error a (Z.to_nat (row_no (len a) i)) = Some v.
Proof.
  unfold lget, aget, row_no. set (j := if i <? 0 then i + len a else i). destruct (Z.ltb_spec j 0), (Z.leb_spec (len a) j); try discriminate. cbn [orb].
  destruct (nth_error a (Z.to_nat j)); [|discriminate]. intros [=->]. auto.
Qed.
Lemma row_no_pos N i : pos N i = Z.to_nat (row_no N i). Proof. reflexivity. Qed.
Lemma reads_irep ns tree t : irep tree t -> reads (map (rowf ns) tree) (lidx t) (lleaves t).
Proof.
  assert (HL : len (map (rowf ns) tree) = len tree) by (unfold len; rewrite map_length; reflexivity).
  induction t as [i k|i l IHl r IHr]; intros R; destruct (irep_here _ _ R) as [d Hg]; destruct (lget_row _ _ _ Hg) as [H0 Hn].
  - cbn [lidx lleaves] in *. eapply reads_leaf; rewrite HL; [exact H0|]. rewrite nth_error_map, Hn. reflexivity.
  - cbn [irep] in R. destruct R as (_ & Rl & Rr). specialize (IHl Rl). specialize (IHr Rr).
    destruct (lkey_ends l) as (x & yl & xs & ysl & A & _ & C & D & _ & _). destruct (lkey_ends r) as (xr & y & xsr & ys & _ & B & _ & _ & E & F). cbn [lidx lleaves] in *.
    rewrite A in IHl. rewrite B in IHr. rewrite A, B. eapply reads_node; [rewrite HL; exact H0| |exact IHl|exact IHr]. rewrite HL, nth_error_map, Hn. cbn [option_map rowf n_left n_key n_right lft rgt lkey n_data]. unfold rowf. cbn [n_left n_key n_right n_data].
    rewrite <- C, <- D, <- E, <- F. reflexivity.
Qed.
Lemma kids_nonneg tree t : irep tree t -> forall q n c, In q (lpos (len tree) t) -> nth_error tree q = Some n -> In c (zkids n) -> 0 <= row_no (len tree) c.
Proof.
  induction t as [i k|i l IHl r IHr]; intros R q n c; cbn [lpos]; intros [Eq|H] Hn Hc; [|destruct H| |].
  - destruct (irep_here _ _ R) as [d Hg]. destruct (lget_pos _ _ _ Hg) as [Hm _]. rewrite Eq, Hn in Hm. injection Hm as ->. destruct Hc.
  - destruct (irep_here _ _ R) as [d Hg]. destruct (lget_pos _ _ _ Hg) as [Hm _]. rewrite Eq, Hn in Hm. injection Hm as ->. cbn [irep] in R. destruct R as (_ & Rl & Rr).
    destruct (irep_here _ _ Rl) as [dl Hl]. destruct (irep_here _ _ Rr) as [dr Hr]. destruct Hc as [<-|[<-|[]]]; [apply (lget_row _ _ _ Hl)|apply (lget_row _ _ _ Hr)].
  - cbn [irep] in R. destruct R as (_ & Rl & Rr). apply in_app_iff in H. destruct H as [H|H]; [apply (IHl Rl q n c H Hn Hc)|apply (IHr Rr q n c H Hn Hc)].
Qed.
Lemma rowf_kids ns N n : (forall c, In c (zkids n) -> 0 <= row_no N c) -> row_kids N (rowf ns n) = map Z.of_nat (kidp N n).
Proof.
  intros H. unfold kidp, row_kids, rowf. unfold zkids in *. destruct (n_left n) as [l|]; [|reflexivity]. destruct (n_right n) as [r|]; [|reflexivity]. cbn [map]. rewrite !row_no_pos, !Z2Nat.id by (apply H; cbn; auto). reflexivity.
Qed.
Lemma lsize_leaves t : (lsize t + 1 = 2 * length (lleaves t))%nat.
Proof. induction t as [i k|i l IHl r IHr]; [reflexivity|]. cbn [lsize lleaves]. rewrite app_length. lia. Qed.
Lemma elems_length es : forall prev, length (elems prev es) = (2 * length es)%nat.
Proof. induction es as [|e es IH]; intros prev; [reflexivity|]. cbn [elems length]. rewrite IH. lia. Qed.

Theorem print_tree_ok one segs : 0 < one -> segs <> [] -> exists rows, ist_printed one segs = Ret rows /\ shown_tree one segs rows.
Proof.
  intros Ho Hne. unfold ist_printed, ist_build. set (ns := map norm_seg segs). assert (Hn : ns <> []) by (unfold ns; destruct segs; [contradiction|discriminate]).
  set (es := zsort (concat (map (fun s => [fst s; snd s]) ns))). rewrite (elementary_ok one ns Hn). fold es. cbn [bind].
  assert (Hesl : length es = (2 * length segs)%nat).
  { unfold es. rewrite zsort_len. unfold ns. clear. induction segs as [|s segs IH]; [reflexivity|]. cbn [map concat]. rewrite app_length, IH. cbn [length]. lia. }
  assert (Hes : (2 <= length es)%nat) by (destruct segs; [contradiction|cbn [length] in Hesl; lia]).
  set (E := elem_all one es).
  assert (HlE : length E = (4 * length segs + 1)%nat).
  { unfold E, elem_all. destruct es as [|e es']; [simpl in Hes; lia|]. rewrite app_length, elems_length. cbn [length] in *. lia. }
  assert (HE : (2 <= length (map fresh E))%nat) by (rewrite map_length; lia).
  assert (HF : Forall2 (nrep []) (map fresh E) (map UL E)).
  { clear. induction E as [|k E IH]; constructor; [repeat split|exact IH]. }
  assert (HS : usum (map UL E) = length (map fresh E)).
  { clear. induction E as [|k E IH]; [reflexivity|]. cbn [map usum fold_right usize length]. unfold usum in IH. rewrite IH. lia. }
  assert (HU : uall (map UL E) = E) by (clear; unfold uall; induction E as [|k E IH]; [reflexivity|]; cbn [map concat uleaves]; rewrite IH; reflexivity).
  pose proof (pair_up_ok _ _ HE HF HS) as W. apply wp_ex in W. destruct W as ([q tree] & Epair & Ir & l & r & -> & N & El & Sz & HL & HR & D). rewrite HU in El.
  pose proof (pair_up_inv _ _ _ (pinv_start E) Epair) as PI. rewrite Epair. cbn [bind].
  assert (Hlt : (2 <= length tree)%nat) by (cbn [usize] in Sz; pose proof (usize_pos l); pose proof (usize_pos r); lia).
  pose proof (wired_final Ir tree PI HL HR Hlt) as W1.
  set (root := {| n_key := n_key Ir; n_left := Some (-3); n_right := Some (-2); n_data := n_data Ir |}) in *. set (tree1 := tree ++ [root]) in *.
  assert (T : exists t, irep tree1 t /\ lidx t = -1 /\ lleaves t = E /\ lsize t = length tree1).
  { cbn [nrep] in N. destruct N as (K1 & K2 & i & j & nl & nr & A & B & Pi & Pj & C & F & Nl & Nr). rewrite HL in A. rewrite HR in B. injection A as <-. injection B as <-.
    assert (Hlen : len tree1 = len tree + 1) by (unfold tree1, len; rewrite app_length; cbn [length]; lia).
    assert (Cl : lget tree1 (-3) = Ret nl).
    { pose proof (lget_app _ [root] _ _ C Pi) as Q. fold tree1 in Q. unfold lget in *. destruct (Z.ltb_spec (len tree - 2) 0); [lia|]. change (-3 <? 0) with true. cbv iota.
      replace (-3 + len tree1) with (len tree - 2) by lia. exact Q. }
    assert (Cr : lget tree1 (-2) = Ret nr).
    { pose proof (lget_app _ [root] _ _ F Pj) as Q. fold tree1 in Q. unfold lget in *. destruct (Z.ltb_spec (len tree - 1) 0); [lia|]. change (-2 <? 0) with true. cbv iota.
      replace (-2 + len tree1) with (len tree - 1) by lia. exact Q. }
    destruct (nrep_irep tree1 l (-3) nl Cl (nrep_app _ _ _ _ Nl)) as (tl & A1 & A2 & A3 & A4 & A5). destruct (nrep_irep tree1 r (-2) nr Cr (nrep_app _ _ _ _ Nr)) as (tr & B1 & B2 & B3 & B4 & B5).
    exists (LN (-1) tl tr). cbn [irep lidx lleaves lsize lkey ukey lft rgt]. split; [split; [|auto]|split; [reflexivity|split; [rewrite A4, B4; exact El|]]].
    - exists None. unfold lget, aget. change (-1 <? 0) with true. cbv iota. rewrite Hlen. pose proof (len_nonneg _ tree). destruct (Z.ltb_spec (-1 + (len tree + 1)) 0); [lia|].
      destruct (Z.leb_spec (len tree + 1) (-1 + (len tree + 1))); [lia|]. cbn [orb]. unfold tree1. rewrite nth_error_app2 by (unfold len; lia).
      replace (Z.to_nat (-1 + (len tree + 1)) - length tree)%nat with 0%nat by (unfold len; lia). cbn [nth_error]. unfold root. rewrite K1, K2, A2, B2, A3, B3. reflexivity.
    - cbn [usize] in Sz. unfold tree1. rewrite app_length. cbn [length]. lia. }
  destruct T as (t & R & Et & Lv & Sz').
  assert (D1 : forall p, dat tree1 p = []).
  { intros p. unfold dat. destruct (nth_error tree1 p) as [n|] eqn:En; [|reflexivity]. apply nth_error_In in En. unfold tree1 in En. apply in_app_iff in En.
    rewrite Forall_forall in D. destruct En as [En|[<-|[]]]; [rewrite (D n En); reflexivity|]. unfold root. cbn [n_data]. rewrite (nrep_data _ _ _ N). reflexivity. }
  assert (F1 : Forall filled tree1).
  { unfold tree1. apply Forall_app. split; [revert D; apply Forall_impl; intros n Hn'; unfold filled; congruence|]. repeat constructor. unfold filled, root. cbn [n_data]. rewrite (nrep_data _ _ _ N). discriminate. }
  destruct (insert_all_x ns t 0%nat tree1 R Et ltac:(lia) (lpos_nodup _ W1 t R) F1) as (tree2 & -> & Sk & F2 & Dt). cbn [bind].
  assert (L2 : length tree2 = length tree1) by (apply (f_equal (@length _)) in Sk; rewrite !map_length in Sk; exact Sk).
  pose proof (irep_skel _ _ _ Sk R) as R2. pose proof (wired_skel _ _ Sk W1) as W2. assert (Ll : len tree2 = len tree1) by (unfold len; lia).
  assert (HM : mono (lleaves t)) by (rewrite Lv; apply elem_all_mono; [exact Ho|apply zsort_sorted]).
  assert (Hall : forall p, (p < length tree2)%nat -> In p (lpos (len tree2) t)) by (intros p Hp; apply (lpos_all tree2 W2 t R2 Et (length tree2) p); lia).
  assert (Hkn : forall n c, In n tree2 -> In c (zkids n) -> 0 <= row_no (len tree2) c).
  { intros n c Hin Hc. apply In_nth_error in Hin. destruct Hin as [p Hp]. assert (p < length tree2)%nat by (apply nth_error_Some; congruence). apply (kids_nonneg tree2 t R2 p n c (Hall p H) Hp Hc). }
  assert (HLr : len (map (rowf ns) tree2) = len tree2) by (unfold len; rewrite map_length; reflexivity).
  assert (Hrk : forall n, In n tree2 -> row_kids (len tree2) (rowf ns n) = map Z.of_nat (kidp (len tree2) n)) by (intros n Hin; apply rowf_kids; intros c; apply Hkn; exact Hin).
  exists (map (rowf ns) tree2). split; [reflexivity|]. split.
  - (* the leaves *)
    pose proof (zsort_sorted (concat (map (fun s => [fst s; snd s]) ns))) as Ss. fold es in Ss. assert (Hp : Permutation es (flat_map (fun s => [fst s; snd s]) segs)).
    { unfold es. rewrite zsort_perm. apply ends_perm. }
    pose proof (reads_irep ns tree2 t R2) as Rd. rewrite Et, Lv in Rd. unfold E, elem_all in Rd. clearbody es. destruct es as [|e es']; [simpl in Hes; lia|]. exists e, es'. split; [apply zsorted_sorted, Ss|]. split; [exact Hp|].
    rewrite cut_elems. rewrite (last_default (e :: es') (e - one) e) by discriminate. exact Rd.
  - rewrite HLr. rewrite map_length, <- (Permutation_map Z.of_nat (w_perm _ W2)). rewrite !flat_map_concat_map, concat_map, !map_map.
    match goal with |- Permutation (concat (map ?f _)) (concat (map ?g _)) => replace (map f tree2) with (map g tree2); [reflexivity|] end. apply map_ext_in. intros n Hin. symmetry. apply Hrk. exact Hin.
  - rewrite map_length. pose proof (lsize_leaves t) as Q. rewrite Lv in Q. lia.
  - intros p row Hrow. rewrite nth_error_map in Hrow. destruct (nth_error tree2 p) as [n|] eqn:Hnp; [|discriminate]. cbn [option_map] in Hrow. injection Hrow as <-.
    assert (Hpl : (p < length tree2)%nat) by (apply nth_error_Some; congruence). pose proof (Hall p Hpl) as Hin.
    destruct (Dt p) as (ks & Ek & Sks & Hks). rewrite D1 in Ek. cbn [app] in Ek. exists ks. split; [exact Sks|]. split.
    + intros k. rewrite Hks. rewrite <- Ll.
      destruct (key_of_pos tree2 t R2 HM p (n_key n) Hin ltac:(exists n; auto)) as [_ Hproper].
      assert (Hbel : forall s, belongs (map (rowf ns) tree2) s p <-> stops (len tree2) (IK true (fst (norm_seg s)) (snd (norm_seg s)) true) t p).
      { intros s. set (a := fst (norm_seg s)). set (b := snd (norm_seg s)). assert (Hab : a <= b) by (unfold a, b, norm_seg; cbn; lia).
        assert (Hcov : forall k', covers s k' <-> contains (IK true a b true) k' = true) by (intros k'; rewrite contains_closed; reflexivity).
        assert (Hpar : (forall q, In q (map (rowf ns) tree2) -> In (Z.of_nat p) (row_kids (len (map (rowf ns) tree2)) q) -> ~ covers s (row_key q)) <-> no_parent tree2 (IK true a b true) p).
        { rewrite HLr. split.
          - intros H q m Hm Hc. assert (Hi : In m tree2) by (apply (nth_error_In _ _ Hm)). specialize (H (rowf ns m) (in_map _ _ _ Hi)). rewrite (Hrk m Hi) in H. specialize (H (in_map _ _ _ Hc)). rewrite Hcov in H. cbn [row_key rowf fst snd] in H.
            unfold row_key, rowf in H. cbn [fst snd] in H. destruct (contains _ (n_key m)); [exfalso; apply H; reflexivity|reflexivity].
          - intros H q Hq Hc. apply in_map_iff in Hq. destruct Hq as (m & <- & Hm). rewrite (Hrk m Hm) in Hc. apply in_map_iff in Hc. destruct Hc as (p' & Ep & Hc). apply Nat2Z.inj in Ep. subst p'.
            apply In_nth_error in Hm. destruct Hm as [q Hm]. specialize (H q m Hm Hc). rewrite Hcov. unfold row_key, rowf. cbn [fst snd]. congruence. }
        assert (Hdeg : contains (IK true a b true) (n_key n) = true -> (intersect (IK true a b true) (n_key n) = true <-> ~ (fst s = snd s /\ n_key n = IK false (fst s) (fst s) false))).
        { intros Hc. rewrite (intersect_covered a b (n_key n) Hab Hproper Hc). assert (Eab : a = b <-> fst s = snd s) by (unfold a, b, norm_seg; cbn; lia).
          split; intros H [H1 H2]; apply H; (split; [tauto|]); rewrite H2; assert (a = fst s) by (unfold a, norm_seg in *; cbn in *; lia); congruence. }
        split.
        - intros (row & Hr & Hc & Hp & Hd). rewrite nth_error_map, Hnp in Hr. injection Hr as <-. apply Hpar in Hp. apply Hcov in Hc. unfold row_key, rowf in Hc, Hd. cbn [fst snd] in Hc, Hd.
          apply (stops_back tree2 W2 a b t Hab R2 HM p (n_key n) Hin); [exists n; auto|exact Hc|]. right. split; [exact Hp|]. apply (Hdeg Hc). exact Hd.
        - intros Hst.
          destruct (stops_fwd tree2 W2 _ t R2 p Hst) as (_ & (k0 & (n0 & Hn0 & <-) & Hc & Hi) & Hnp'). rewrite Hnp in Hn0. injection Hn0 as <-.
          assert (Hnp2 : no_parent tree2 (IK true a b true) p).
          { destruct Hnp' as [Ep|H]; [|exact H]. intros q m Hm Hcm. exfalso. pose proof (w_below _ W2 _ _ _ Hm Hcm) as Hb. assert (q < length tree2)%nat by (apply nth_error_Some; congruence).
            rewrite Et in Ep. unfold pos in Ep. change (-1 <? 0) with true in Ep. cbv iota in Ep. unfold len in Ep. lia. }
          exists (rowf ns n). split; [rewrite nth_error_map, Hnp; reflexivity|]. split; [apply Hcov; exact Hc|]. split; [apply Hpar; exact Hnp2|].
          destruct Hi as [Ep|Hi]; [|apply (Hdeg Hc); exact Hi]. intros [_ Hk]. unfold row_key, rowf in Hk. cbn [fst snd] in Hk.
          destruct (root_node tree2 t R2) as (m & Hm & Hkm & _). rewrite <- Ep, Hnp in Hm. injection Hm as <-.
          destruct (lkey_ends t) as (f & g & xs & ys & A & B & _ & Dk & Ek' & _). rewrite Lv in A, B. unfold E, elem_all in A, B.
          pose proof (zsort_sorted (concat (map (fun s => [fst s; snd s]) ns))) as Ss. fold es in Ss. clearbody es. destruct es as [|e es']; [simpl in Hes; lia|].
          cbn [elems app] in A. injection A as <- _. apply app_inj_tail in B. destruct B as [_ <-]. rewrite Hkm in Hk. rewrite Hk in Dk, Ek'. unfold opn in Dk, Ek'. cbn [k_lo k_hi] in Dk, Ek'.
          assert (Hle : e <= last (e :: es') e). { pose proof (last_in (e :: es') e ltac:(discriminate)) as Q. destruct Q as [Q|Q]; [lia|]. destruct Ss as [Ss _]. apply Ss. exact Q. }
          lia. }
      split.
      * intros (i & seg & Hsg & -> & Hst). unfold ns in Hsg. rewrite nth_error_map in Hsg. cbn [Nat.add]. destruct (nth_error segs i) as [s|]; [|discriminate]. cbn [option_map] in Hsg. injection Hsg as <-.
        exists s. split; [reflexivity|]. apply Hbel. exact Hst.
      * intros (s & Hs & Hb). apply Hbel in Hb. exists k, (norm_seg s). split; [unfold ns; rewrite nth_error_map, Hs; reflexivity|]. split; [reflexivity|]. exact Hb.
    + unfold row_data, rowf. cbn [fst snd]. unfold dat in Ek. rewrite Hnp in Ek. rewrite Forall_forall in F2. specialize (F2 n (nth_error_In _ _ Hnp)). unfold filled in F2.
      destruct (n_data n) as [ds|]; [|subst ks; reflexivity]. subst ks. destruct ds as [|d0 ds]; [contradiction|]. cbn [option_map]. f_equal. apply map_ext. intros k. unfold ns. pose proof (map_nth norm_seg segs (0, 0) k) as Q. change (norm_seg (0, 0)) with (0, 0) in Q. etransitivity; [exact Q|reflexivity].
Qed.
