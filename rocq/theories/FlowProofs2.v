(** Augmentation, edmonds_karp and dinic (C84). *)
From Coq Require Import Strings.String Strings.Ascii.
From Verif Require Import Base DsfModel GraphModel GraphSpec GraphDict GraphProofs PathModel PathProofs FlowModel FlowSpec FlowProofs.
Import List.

Section F.
  Context (g : gview) (G : dg) (HG : represents g G) (HC : represents_costs g G) (HN : network G) (s t : string) (Hs : In s (fst G)) (Hst : s <> t).
  Notation V := (fst G).
  Record pre_flow (f : fmap) : Prop := {
    p_skew : forall u v, fget f u v = - fget f v u;
    p_within : forall u v c, has_cost G u v c -> fget f u v <= c;
    p_only : forall u v, ~ is_edge G u v -> fget f u v <= 0 }.
  Definition out (f : fmap) (u : string) : Z := sum_over V (fget f u).
  Definition at_ (x u : string) (a : Z) : Z := if String.eqb u x then a else 0.

  Lemma push_ok f p c k a : pre_flow f -> p <> c -> has_cost G p c k -> fget f p c + a <= k -> 0 <= a -> pre_flow (push f p c a) /\ forall u, out (push f p c a) u = out f u + at_ p u a - at_ c u a.
  Proof.
    intros P Hpc Hk Hle Ha. destruct (cap_V g G HG p c k Hk) as (Vp & Vc). assert (NV := proj1 (proj2 HG)). split.
    - split.
      + intros u v. rewrite !push_get by exact Hpc. rewrite (p_skew _ P u v). rewrite (andb_comm (String.eqb u p)), (andb_comm (String.eqb u c)). lia.
      + intros u v k' Hk'. rewrite push_get by exact Hpc. assert (X := p_within _ P u v k' Hk').
        destruct (SE u p) as [->|], (SE v c) as [->|]; cbn [andb]; [assert (E := cap_fun g G HG _ _ _ _ Hk Hk'); subst k'| | |]; destruct (String.eqb _ c && String.eqb _ p); lia.
      + intros u v Hn. rewrite push_get by exact Hpc. assert (X := p_only _ P u v Hn).
        destruct (SE u p) as [->|], (SE v c) as [->|]; cbn [andb]; [exfalso; apply Hn; eapply cost_edge; exact Hk| | |]; destruct (String.eqb _ c && String.eqb _ p); lia.
    - intros u. unfold out, at_. rewrite (sum_ext _ _ (fun v => fget f u v + (if String.eqb v c then (if String.eqb u p then a else 0) else 0) + (if String.eqb v p then (if String.eqb u c then - a else 0) else 0))).
      + rewrite !sum_add, !sum_point by assumption. destruct (SE u p), (SE u c); lia.
      + intros v _. rewrite push_get by exact Hpc. destruct (SE u p), (SE u c), (SE v p), (SE v c); cbn [andb]; lia.
  Qed.

  Definition flow_ok (f : fmap) (m : Z) : Prop := feasible G s t (fget f) /\ flow_value G s (fget f) = m.
  Lemma flow_pre f m : flow_ok f m -> pre_flow f.
  Proof. intros (F & _). split; apply F. Qed.
  Lemma flow_step f m f' a : flow_ok f m -> pre_flow f' -> (forall u, out f' u = out f u + at_ s u a - at_ t u a) -> flow_ok f' (m + a).
  Proof.
    intros (F & E) P O. split.
    - split; [apply P|apply P|apply P|]. intros u Hu Us Ut. fold (out f' u). rewrite O. unfold at_. destruct (SE u s); [contradiction|]. destruct (SE u t); [contradiction|]. unfold out. rewrite (conserved _ _ _ _ F u Hu Us Ut). lia.
    - unfold flow_value in *. fold (out f' s). rewrite O. unfold at_. rewrite String.eqb_refl. destruct (SE s t); [contradiction|]. unfold out. lia.
  Qed.

  Lemma augment_ok f m a parent : flow_ok f m -> found_sink G s t f (Some a) parent ->
    wp (mf_augment (S (S (length parent))) s parent a t f) (fun f' => flow_ok f' (m + a)).
  Proof.
    intros FO (a' & cap & E & Pa & T & (A1 & A2) & Ct & It). injection E as <-. unfold mf_augment. set (K := order s parent).
    apply (wp_while _ _ (fun '(cur, f') => In cur K /\ (cur = s \/ exists b, sdget cap cur = Some (Some b) /\ a <= b) /\ pre_flow f' /\ (forall u, out f' u = out f u + at_ cur u a - at_ t u a) /\
              forall x p, In (x, p) parent -> x <> s -> (ipos x K <= ipos cur K)%nat -> fget f' p x = fget f p x)
             (fun '(cur, _) => ipos cur K)).
    - intros [cur f'] (HK & HB & P & O & FR). destruct (SE cur s) as [->|Hcs].
      + cbn [wp]. eapply flow_step; eauto.
      + destruct HB as [HB|(b & HB & Hab)]; [contradiction|]. destruct HK as [X|HK]; [congruence|]. apply in_map_iff in HK as ([x p] & E & HI). cbn in E. subst x.
        unfold dgetE. rewrite (In_sget parent cur p (t_nd _ _ _ _ T) HI). cbn [bind wp].
        destruct (A1 cur p HI Hcs) as (b' & c & B1 & B2 & B3 & B4 & B5). rewrite HB in B1. injection B1 as <-.
        destruct (t_ord _ _ _ _ T cur p HI) as (O1 & O2). specialize (O2 Hcs). fold K in O1, O2.
        assert (Hpc : p <> cur) by (intros ->; lia).
        assert (FE := FR cur p HI Hcs (Nat.le_refl _)).
        destruct (push_ok f' p cur c a P Hpc B3) as (P' & O'); [lia|lia|]. fold (push f' p cur a).
        split; [|exact O2]. split; [exact O1|]. split; [|split; [exact P'|split]].
        * destruct (SD p s) as [|Hps]; [auto|]. right. destruct (B5 Hps) as (d & D1 & D2). exists d. split; [exact D1|lia].
        * intros u. rewrite O', O. lia.
        * intros x q Hxq Hxs Hle. rewrite push_get by exact Hpc. rewrite (FR x q Hxq Hxs) by lia.
          destruct (SE x cur) as [->|Hxc]; [lia|]. rewrite andb_false_r. destruct (SE q cur) as [->|Hqc]; cbn [andb]; [|lia]. destruct (SE x p) as [->|]; [|lia].
          exfalso. destruct (t_ord _ _ _ _ T p cur Hxq) as (_ & Y). specialize (Y Hxs). fold K in Y. lia.
    - split; [right; exact It|]. split; [right; exists a; split; [exact Ct|lia]|]. split; [eapply flow_pre; exact FO|]. split; [intros u; lia|]. auto.
    - assert (L := ipos_lt t K (or_intror It)). unfold K, order in *. cbn [length] in L. rewrite map_length in L. lia.
  Qed.

  (** no flow exceeds this *)
  Definition capacity_bound : Z := Z.of_nat (length V) * W g.
  Lemma flow_bound f m : flow_ok f m -> m <= capacity_bound.
  Proof.
    intros (F & <-). unfold flow_value, capacity_bound. assert (H : forall v, fget f s v <= W g).
    { intros v. assert (D : (exists c, has_cost G s v c) \/ ~ is_edge G s v).
      { destruct (in_dec (fun x y : string * string => ltac:(decide equality; apply string_dec)) (s, v) (dg_edges G)) as [I|I]; [left; apply (proj1 HN); exact I|right; exact I]. }
      assert (X := wsum_nonneg g). destruct D as [(c & Hc)|D]; [|assert (Y := only_edges _ _ _ _ F s v D); lia].
      assert (Y := within _ _ _ _ F s v c Hc). assert (Z := cost_le g G HC s v c Hc). lia. }
    clear - H. induction V as [|x l IH]; [cbn; lia|]. rewrite sum_cons. specialize (H x). cbn [length]. nia.
  Qed.
  Lemma flow_zero : flow_ok [] 0.
  Proof.
    split; [split|].
    - reflexivity.
    - intros u v c Hc. cbn. apply (proj2 HN) in Hc. exact Hc.
    - cbn. lia.
    - intros. apply sum_zero.
    - apply sum_zero.
  Qed.

  (** nothing more can be found: the flow is maximal if the pipes inside are two-way *)
  Definition stuck (f : fmap) : Prop := exists parent, tree G s f parent /\ (forall x v, In x (order s parent) -> closed_at G f parent x v) /\ ~ In t (map fst parent).
  Lemma stuck_max f m : flow_ok f m -> stuck f -> two_way_inside G s t -> is_max_flow G s t m.
  Proof.
    intros (F & <-) (parent & T & CL & NT) TW. split; [exists (fget f); auto|]. intros f' F'.
    apply (cut_compare G s t (fget f) f' (fun x => mem x (order s parent))); auto.
    - apply HG.
    - apply mem_true. left. reflexivity.
    - apply mem_false. intros [X|X]; [congruence|contradiction].
    - intros u v Hu Hv Bu Bv. rewrite mem_true in Bu. rewrite mem_false in Bv.
      assert (Us : v <> s) by (intros ->; apply Bv; left; reflexivity). assert (Ut : u <> t) by (intros ->; destruct Bu as [X|X]; [congruence|contradiction]).
      assert (ED : forall x y, is_edge G x y \/ ~ is_edge G x y). { intros x y. destruct (in_dec (fun x y : string * string => ltac:(decide equality; apply string_dec)) (x, y) (dg_edges G)); auto. }
      assert (BK : (forall c, has_cost G u v c -> c <= 0) -> 0 <= fget f u v).
      { intros H. rewrite (skew _ _ _ _ F u v). destruct (ED v u) as [I|I]; [|assert (Y := only_edges _ _ _ _ F v u I); lia]. destruct (proj1 HN _ _ I) as (c & Hc).
        assert (Y := within _ _ _ _ F v u c Hc). destruct (Z_le_gt_dec c 0) as [|Pc]; [lia|]. destruct (TW v u c Hc) as (c' & Hc' & Pc'); [lia|exact Us|exact Ut|]. specialize (H c' Hc'). lia. }
      destruct (ED u v) as [I|I].
      + destruct (proj1 HN _ _ I) as (c & Hc). assert (Y := within _ _ _ _ F' u v c Hc). destruct (Z.eq_dec c 0) as [->|NZ].
        * assert (0 <= fget f u v); [apply BK; intros c' Hc'; rewrite (cap_fun g G HG _ _ _ _ Hc' Hc); lia|lia].
        * destruct (Z_lt_le_dec 0 (c - fget f u v)) as [L|L]; [|lia]. exfalso. apply Bv. right. eapply CL; eauto.
      + assert (Y := only_edges _ _ _ _ F' u v I). assert (0 <= fget f u v); [apply BK; intros c' Hc'; exfalso; apply I; eapply cost_edge; exact Hc'|lia].
  Qed.

  Lemma edmonds_karp_ok fuel : (Z.to_nat capacity_bound < fuel)%nat -> wp (edmonds_karp fuel g s t) (fun m => exists f, flow_ok f m /\ stuck f).
  Proof.
    intros Hf. unfold edmonds_karp.
    apply (wp_while _ _ (fun '(m, f) => flow_ok f m /\ 0 <= m) (fun '(m, f) => Z.to_nat (capacity_bound - m))).
    - intros [m f] (FO & Pm). apply wp_bind. eapply wp_mono; [apply (bfs_ok g G HG HC HN s t Hs Hst f false)|]. intros [nf parent] [(_ & FS)|(E & T & CL & NT)]; cbn [fst snd] in *.
      + destruct FS as (a & cap & -> & Pa & R). destruct (Z.eqb_spec a 0); [lia|]. apply wp_bind. eapply wp_mono; [eapply augment_ok; [exact FO|exists a, cap; split; [reflexivity|]; split; [exact Pa|exact R]]|].
        intros f' FO'. cbn [wp]. split; [split; [exact FO'|lia]|]. assert (B := flow_bound _ _ FO'). lia.
      + subst nf. cbn [wp]. exists f. split; [exact FO|]. exists parent. auto.
    - split; [apply flow_zero|lia].
    - rewrite Z.sub_0_r. exact Hf.
  Qed.
End F.
