(** Topological sort (C77). *)
From Coq Require Import Strings.String Strings.Ascii.
From Verif Require Import Base DsfModel GraphModel GraphSpec GraphDict GraphProofs SearchGraphModel.
Import List.

Definition b2z (b : bool) : Z := if b then 1 else 0.
Definition indeg (G : dg) (v : string) : Z := zsum (fun u => b2z (mem v (outs (snd G) u))) (fst G).
Lemma zsum_nonneg f V : (forall x, 0 <= f x) -> 0 <= zsum f V.
Proof. intros H. induction V as [|a V IH]; simpl; [lia|]. specialize (H a). lia. Qed.
Lemma zsum_zero f V : (forall x, 0 <= f x) -> zsum f V = 0 -> forall x, In x V -> f x = 0.
Proof.
  intros H. induction V as [|a V IH]; intros E x Hx; [destruct Hx|]. simpl in E. assert (X := zsum_nonneg f V H). assert (Y := H a). destruct Hx as [->|Hx]; [lia|]. apply IH; [lia|exact Hx].
Qed.
Lemma b2z_nonneg b : 0 <= b2z b.
Proof. destruct b; simpl; lia. Qed.
Lemma indeg_zero G v : dg_ok G -> indeg G v = 0 <-> (forall u, ~ is_edge G u v).
Proof.
  intros HG. unfold indeg. split.
  - intros E u Hu. destruct (ok_in _ HG u v Hu) as [Huv _]. assert (X := zsum_zero _ _ (fun x => b2z_nonneg (mem v (outs (snd G) x))) E u Huv).
    cbv beta in X. assert (M : mem v (outs (snd G) u) = true) by (apply mem_true, outs_In; exact Hu). rewrite M in X. discriminate.
  - intros H. rewrite (zsum_ext _ (fun _ => 0)); [clear; induction (fst G); simpl; lia|]. intros u _. assert (M : mem v (outs (snd G) u) = false) by (apply mem_false; rewrite outs_In; apply H). rewrite M. reflexivity.
Qed.
Lemma indeg_nonneg G v : 0 <= indeg G v.
Proof. apply zsum_nonneg. intros x. apply b2z_nonneg. Qed.
Lemma indeg_remE V E u v x : NoDup V -> In u V -> is_edge (V, E) u v -> indeg (dg_step (V, E) (GRemE u v)) x = if String.eqb x v then indeg (V, E) x - 1 else indeg (V, E) x.
Proof.
  intros HN Hu HE. unfold indeg. cbn [dg_step fst snd]. destruct (SE x v) as [->|Hx].
  - rewrite (zsum_bump _ (fun u0 => b2z (mem v (outs E u0))) V u (-1)); [lia|exact HN|exact Hu| |].
    + rewrite outs_rem_edge, String.eqb_refl. rewrite filter_mem, String.eqb_refl. cbn [negb]. rewrite andb_false_r.
      assert (M : mem v (outs E u) = true) by (apply mem_true, outs_In; exact HE). rewrite M. reflexivity.
    + intros y Hy. rewrite outs_rem_edge. destruct (SE y u); [contradiction|reflexivity].
  - apply zsum_ext. intros y _. rewrite outs_rem_edge. destruct (SE y u) as [->|]; [|reflexivity]. rewrite filter_mem. destruct (SE v x); [congruence|]. rewrite andb_true_r. reflexivity.
Qed.

Lemma fold_zero (l : list string) : forall d x, sdget (fold_left (fun d v => sdset d v 0) l d) x = if mem x l then Some 0 else sdget d x.
Proof.
  induction l as [|a l IH]; intros d x; [reflexivity|]. cbn [fold_left]. rewrite IH, sget_set. unfold mem. simpl. fold (mem x l).
  destruct (String.eqb x a), (mem x l); reflexivity.
Qed.
Lemma fold_zero_nodup (l : list string) : forall d : list (string * Z), NoDup (map fst d) -> NoDup (map fst (fold_left (fun d v => sdset d v 0) l d)).
Proof. induction l as [|a l IH]; intros d H; [exact H|]. cbn [fold_left]. apply IH, sset_nodup, H. Qed.

Section K.
  Context (g0 : al) (G : dg) (HR : al_rep g0 G) (HG : dg_ok G).
  Let V := fst G.

  (** counting the in-degrees *)
  Definition count_body (u : string) (d : list (string * Z)) : res (list (string * Z)) :=
    l <- al_neighbors g0 u ;; forM l (fun v d => match sdget d v with Some k => Ret (sdset d v (k + 1)) | None => Raise KeyError end) d.
  Lemma count_inner l : NoDup l -> incl l V -> forall (d : list (string * Z)) (f : string -> Z),
    (forall x, sdget d x = if mem x V then Some (f x) else None) ->
    wp (forM l (fun v d => match sdget d v with Some k => Ret (sdset d v (k + 1)) | None => Raise KeyError end) d)
       (fun d' => forall x, sdget d' x = if mem x V then Some (f x + b2z (mem x l)) else None).
  Proof.
    induction l as [|a l IH]; intros HN HI d f Hd.
    - cbn. intros x. rewrite Hd. destruct (mem x V); [f_equal; lia|reflexivity].
    - inversion HN; subst. cbn [forM]. rewrite Hd. assert (Ha : mem a V = true) by (apply mem_true, HI; left; reflexivity). rewrite Ha. cbn [bind].
      eapply wp_mono; [apply (IH H2 (fun y Hy => HI y (or_intror Hy)) _ (fun x => if String.eqb x a then f a + 1 else f x))|].
      + intros x. rewrite sget_set, Hd. destruct (SE x a) as [->|]; [rewrite Ha; reflexivity|reflexivity].
      + intros d' Hd' x. rewrite Hd'. destruct (mem x V); [|reflexivity]. f_equal. unfold mem. simpl. fold (mem x l). destruct (SE x a) as [->|]; simpl; [|reflexivity].
        assert (M : mem a l = false) by (apply mem_false; exact H1). rewrite M. simpl. lia.
  Qed.
  Lemma count_ok : wp (forM V count_body (fold_left (fun d u => sdset d u 0) V []))
    (fun d => forall x, sdget d x = if mem x V then Some (indeg G x) else None).
  Proof.
    eapply wp_mono; [apply (wp_forM _ _ V count_body (fun pre d => forall x, sdget d x = if mem x V then Some (zsum (fun u => b2z (mem x (outs (snd G) u))) pre) else None))|].
    - intros pre u post d E Hd. unfold count_body. assert (Hu : In u V) by (rewrite E; apply in_or_app; right; left; reflexivity).
      rewrite (rep_neighbors g0 G u HR HG Hu). cbn [bind]. eapply wp_mono; [apply (count_inner _ (outs_nodup _ u (ok_e _ HG))) with (f := fun x => zsum (fun u => b2z (mem x (outs (snd G) u))) pre)|].
      + intros y Hy. apply outs_In in Hy. apply (ok_in _ HG u y Hy).
      + exact Hd.
      + intros d' Hd' x. rewrite Hd'. destruct (mem x V); [|reflexivity]. f_equal. clear. induction pre as [|a pre IH]; simpl; [lia|]. rewrite <- IH. lia.
    - intros x. rewrite fold_zero. simpl. destruct (mem x V); reflexivity.
    - intros d Hd. exact Hd.
  Qed.

  (** the vertices without incoming edges *)
  Definition start_body (u : string) : list string * list (string * Z) -> res (list string * list (string * Z)) := fun '(q, d) =>
    match sdget d u with Some k => if k =? 0 then Ret (q ++ [u], dpop d u) else Ret (q, d) | None => Raise KeyError end.
  Definition zeros := filter (fun u => indeg G u =? 0).
  Lemma start_ok d0 : (forall x, sdget d0 x = if mem x V then Some (indeg G x) else None) ->
    wp (forM V start_body ([], d0)) (fun '(q, d) => q = zeros V /\ forall x, sdget d x = if mem x V && negb (mem x q) then Some (indeg G x) else None).
  Proof.
    intros H0. eapply wp_mono; [apply (wp_forM _ _ V start_body (fun pre '(q, d) => q = zeros pre /\ forall x, sdget d x = if mem x V && negb (mem x q) then Some (indeg G x) else None))|].
    - intros pre u post [q d] E [-> Hd]. unfold start_body. rewrite Hd.
      assert (Hu : mem u V = true) by (apply mem_true; rewrite E; apply in_or_app; right; left; reflexivity).
      assert (Hz : mem u (zeros pre) = false).
      { apply mem_false. intros X. apply filter_In in X as [X _]. assert (N := ok_v _ HG). fold V in N. rewrite E in N. apply NoDup_remove_2 in N. apply N. apply in_or_app. left. exact X. }
      rewrite Hu, Hz. cbn [andb negb]. unfold zeros. rewrite filter_app. cbn [filter]. destruct (indeg G u =? 0).
      + apply wp_ret. split; [reflexivity|]. intros x. rewrite sget_pop, Hd, mem_app, mem_one. fold (zeros pre). destruct (SE x u) as [->|].
        * rewrite orb_true_r. cbn [negb]. rewrite andb_false_r. reflexivity.
        * rewrite orb_false_r. reflexivity.
      + apply wp_ret. rewrite app_nil_r. split; [reflexivity|]. exact Hd.
    - split; [reflexivity|]. intros x. rewrite H0. simpl. rewrite andb_true_r. reflexivity.
    - intros [q d] H. exact H.
  Qed.

  (** main loop *)
  Record kinv (n : option string) (pre : list string) (q : list string) (d : list (string * Z)) (g : al) (L : list string) : Prop := {
    k_G : exists G', al_rep g G' /\ dg_ok G' /\ fst G' = V /\ incl (snd G') (snd G) /\
          (forall u v, is_edge G' u v <-> is_edge G u v /\ ~ In u L /\ ~ (n = Some u /\ In v pre)) /\
          (forall x, sdget d x = if mem x V && negb (mem x (L ++ match n with Some y => [y] | None => [] end ++ q)) then Some (indeg G' x) else None) /\
          (forall x, In x (L ++ match n with Some y => [y] | None => [] end ++ q) -> indeg G' x = 0) /\
          (forall x, In x V -> ~ In x (L ++ match n with Some y => [y] | None => [] end ++ q) -> 0 < indeg G' x);
    k_nd : NoDup (L ++ match n with Some y => [y] | None => [] end ++ q);
    k_in : incl (L ++ match n with Some y => [y] | None => [] end ++ q) V;
    k_ord : forall l1 v l2, L ++ match n with Some y => [y] | None => [] end ++ q = l1 ++ v :: l2 -> forall u, is_edge G u v -> In u l1 }.

  Definition rem_body (n m : string) : list string * list (string * Z) * al -> res (list string * list (string * Z) * al) := fun '(q, d, g) =>
    g <- al_remove_edge g n m ;;
    match sdget d m with
    | None => Raise KeyError
    | Some k => if k - 1 =? 0 then Ret (q ++ [m], dpop (sdset d m (k - 1)) m, g) else Ret (q, sdset d m (k - 1), g)
    end.
  Lemma snoc_split {A} (l l1 l2 : list A) m v : l ++ [m] = l1 ++ v :: l2 -> (exists l2', l2 = l2' ++ [m] /\ l = l1 ++ v :: l2') \/ (l2 = [] /\ v = m /\ l = l1).
  Proof.
    intros E. destruct l2 as [|y l2 _] using rev_ind.
    - right. apply app_inj_tail in E as [-> ->]. auto.
    - left. exists l2. split.
      + change (l1 ++ v :: l2 ++ [y]) with (l1 ++ (v :: l2) ++ [y]) in E. rewrite app_assoc in E. apply app_inj_tail in E as [_ ->]. reflexivity.
      + change (l1 ++ v :: l2 ++ [y]) with (l1 ++ (v :: l2) ++ [y]) in E. rewrite app_assoc in E. apply app_inj_tail in E as [-> _]. reflexivity.
  Qed.
  Lemma rem_step n pre m q d g L : ~ In n L -> is_edge G n m -> ~ In m pre -> ordinary m -> kinv (Some n) pre q d g L ->
    wp (rem_body n m (q, d, g)) (fun '(q, d, g) => kinv (Some n) (pre ++ [m]) q d g L).
  Proof.
    intros HnL HE Hmp Hom [(G' & R' & OK' & FV & Inc & EE & Ed & Ez & Ep) N I O]. unfold rem_body.
    assert (HE' : is_edge G' n m) by (apply EE; split; [exact HE|]; split; [exact HnL|]; intros [_ X]; contradiction).
    destruct (ok_in _ OK' n m HE') as [Hn Hm]. destruct (step_remove_edge g G' n m R' OK' Hom Hn Hm HE') as (g1 & E1 & R1 & _). rewrite E1. cbn [bind].
    rewrite Ed. assert (HmV : mem m V = true) by (apply mem_true; rewrite <- FV; exact Hm). rewrite HmV.
    set (W := L ++ [n] ++ q) in *. assert (HmW : ~ In m W).
    { intros X. apply Ez in X. apply (proj1 (indeg_zero G' m OK') X n). exact HE'. }
    apply mem_false in HmW as HmW'. fold W. rewrite HmW'. cbn [andb negb].
    assert (OK1 : dg_ok (dg_step G' (GRemE n m))).
    { apply dg_step_ok; [exact OK'|]. cbn [op_names]. constructor; [|constructor; [exact Hom|constructor]]. assert (X := ok_ord _ OK'). rewrite Forall_forall in X. apply X. exact Hn. }
    assert (ID : forall x, indeg (dg_step G' (GRemE n m)) x = if String.eqb x m then indeg G' x - 1 else indeg G' x).
    { intros x. destruct G' as [V' E']. apply indeg_remE; [apply (ok_v _ OK')|exact Hn|exact HE']. }
    assert (FV1 : fst (dg_step G' (GRemE n m)) = V) by (destruct G'; exact FV).
    assert (Inc1 : incl (snd (dg_step G' (GRemE n m))) (snd G)).
    { destruct G' as [V' E']. intros e He. simpl in He. apply filter_In in He as [He _]. apply Inc. exact He. }
    assert (EE1 : forall u v, is_edge (dg_step G' (GRemE n m)) u v <-> is_edge G u v /\ ~ In u L /\ ~ (Some n = Some u /\ In v (pre ++ [m]))).
    { intros u v. assert (X : is_edge (dg_step G' (GRemE n m)) u v <-> ~ (u = n /\ v = m) /\ is_edge G' u v) by (destruct G'; apply is_edge_remE). rewrite X, EE.
      rewrite in_app_iff. simpl. split.
      - intros (A & B & C & D). split; [exact B|]. split; [exact C|]. intros ([= <-] & [F|[F|[]]]); [apply D; auto|apply A; auto].
      - intros (B & C & D). split; [|split; [exact B|split; [exact C|]]].
        + intros [-> ->]. apply D. split; [reflexivity|right; left; reflexivity].
        + intros [F1 F2]. apply D. split; [exact F1|left; exact F2]. }
    assert (Pm := Ep m (proj1 (mem_true _ _) HmV) (proj1 (mem_false _ _) HmW')).
    destruct (Z.eqb_spec (indeg G' m - 1) 0) as [Z0|Z0]; apply wp_ret.
    - assert (EW : L ++ [n] ++ q ++ [m] = W ++ [m]) by (unfold W; rewrite <- !app_assoc; reflexivity).
      assert (Hzero : forall u, ~ is_edge (dg_step G' (GRemE n m)) u m) by (apply (proj1 (indeg_zero _ m OK1)); rewrite ID, String.eqb_refl; exact Z0).
      constructor.
      + exists (dg_step G' (GRemE n m)). split; [exact R1|]. split; [exact OK1|]. split; [exact FV1|]. split; [exact Inc1|]. split; [exact EE1|]. rewrite EW.
        split; [|split].
        * intros x. rewrite sget_pop, sget_set, Ed, ID, mem_app, mem_one. fold W. destruct (SE x m) as [->|]; [rewrite orb_true_r; cbn [negb]; rewrite andb_false_r; reflexivity|].
          rewrite orb_false_r. reflexivity.
        * intros x Hx. rewrite ID. apply in_app_or in Hx as [Hx|[<-|[]]]; [|rewrite String.eqb_refl; exact Z0].
          destruct (SE x m) as [->|]; [exact Z0|]. apply Ez. exact Hx.
        * intros x Hx Hn'. rewrite ID. destruct (SE x m) as [->|]; [exfalso; apply Hn'; apply in_or_app; right; left; reflexivity|]. apply Ep; [exact Hx|]. intros X. apply Hn'. apply in_or_app. left. exact X.
      + rewrite EW. apply (Permutation_NoDup (l := m :: W)); [apply Permutation_cons_append|]. constructor; [apply mem_false; exact HmW'|exact N].
      + rewrite EW. intros x Hx. apply in_app_or in Hx as [Hx|[<-|[]]]; [apply I; exact Hx|apply mem_true; exact HmV].
      + rewrite EW. intros l1 v l2 E u Hu. apply snoc_split in E as [(l2' & _ & E)|(_ & -> & <-)]; [apply (O l1 v l2' E u Hu)|].
        assert (X := Hzero u). rewrite EE1 in X. unfold W. destruct (in_dec_s u L) as [HL|HL]; [apply in_or_app; left; exact HL|].
        destruct (SD n u) as [->|Hnu]; [apply in_or_app; right; left; reflexivity|]. exfalso. apply X. split; [exact Hu|]. split; [exact HL|]. intros [[= Y] _]. congruence.
    - constructor; [|exact N|exact I|exact O]. exists (dg_step G' (GRemE n m)). split; [exact R1|]. split; [exact OK1|]. split; [exact FV1|]. split; [exact Inc1|]. split; [exact EE1|].
      fold W. split; [|split].
      + intros x. rewrite sget_set, Ed, ID. fold W. destruct (SE x m) as [->|]; [rewrite HmV, HmW'; reflexivity|reflexivity].
      + intros x Hx. rewrite ID. destruct (SE x m) as [->|]; [exfalso; apply mem_false in HmW'; contradiction|]. apply Ez. exact Hx.
      + intros x Hx Hn'. rewrite ID. destruct (SE x m) as [->|]; [lia|]. apply Ep; assumption.
  Qed.

  Lemma rem_loop n l : NoDup l -> forall pre q d g L, ~ In n L -> (forall m, In m l -> is_edge G n m) -> (forall m, In m l -> ~ In m pre) -> kinv (Some n) pre q d g L ->
    wp (forM l (rem_body n) (q, d, g)) (fun '(q, d, g) => kinv (Some n) (pre ++ l) q d g L).
  Proof.
    induction l as [|m l IH]; intros HN pre q d g L Hn He Hp K; [cbn; rewrite app_nil_r; exact K|]. inversion HN; subst. cbn [forM]. apply wp_bind.
    eapply wp_mono; [apply rem_step; [exact Hn|apply He; left; reflexivity|apply Hp; left; reflexivity| |exact K]|].
    - assert (Em := He m (or_introl eq_refl)). destruct (ok_in _ HG n m Em) as [_ Hm]. assert (X := ok_ord _ HG). rewrite Forall_forall in X. apply X. exact Hm.
    - intros [[q1 d1] g1] K1. eapply wp_mono; [apply (IH H2 (pre ++ [m])); [exact Hn| | |exact K1]|].
      + intros x Hx. apply He. right. exact Hx.
      + intros x Hx. rewrite in_app_iff. simpl. intros [A|[<-|[]]]; [apply (Hp x); [right; exact Hx|exact A]|contradiction].
      + intros [[q2 d2] g2] K2. rewrite <- app_assoc in K2. exact K2.
  Qed.

  Definition main_body : list string * list (string * Z) * al * list string -> res (ctl (list string * list (string * Z) * al * list string) (list string * al * list (string * Z))) := fun '(q, d, g, L) =>
    match q with
    | [] => Ret (Break (L, g, d))
    | n :: q =>
      l <- al_neighbors g n ;;
      ' (q, d, g) <- forM l (rem_body n) (q, d, g) ;;
      Ret (Next (q, d, g, L ++ [n]))
    end.
  Lemma main_loop d0 q0 : q0 = zeros V -> (forall x, sdget d0 x = if mem x V && negb (mem x q0) then Some (indeg G x) else None) ->
    wp (while_loop (S (length V)) main_body (q0, d0, g0, [])) (fun '(L, g, d) => kinv None [] [] d g L).
  Proof.
    intros Hq Hd. apply (wp_while _ _ (fun '(q, d, g, L) => kinv None [] q d g L) (fun '(q, d, g, L) => (length V - length L)%nat)).
    - intros [[[q d] g] L] K. unfold main_body. destruct q as [|n q]; [apply wp_ret; exact K|].
      assert (K0 := K). destruct K as [(G' & R' & OK' & FV & Inc & EE & Ed & Ez & Ep) N I O]. cbn [app] in *.
      assert (HnV : In n V) by (apply I; apply in_or_app; right; left; reflexivity).
      assert (HnL : ~ In n L) by (intros X; apply NoDup_remove_2 in N; apply N; apply in_or_app; left; exact X).
      rewrite (rep_neighbors g G' n R' OK') by (rewrite FV; exact HnV). cbn [bind]. apply wp_bind.
      eapply wp_mono; [apply (rem_loop n (outs (snd G') n) (outs_nodup _ n (ok_e _ OK')) [] q d g L HnL)|].
      + intros m Hm. apply outs_In in Hm. apply EE in Hm. tauto.
      + intros m _ [].
      + constructor; [|exact N|exact I|exact O]. exists G'. split; [exact R'|]. split; [exact OK'|]. split; [exact FV|]. split; [exact Inc|]. split; [|auto].
        intros u v. rewrite EE. simpl. split; intros (A & B & C); (split; [exact A|]); (split; [exact B|]); tauto.
      + intros [[q1 d1] g1] K1. apply wp_ret. cbn [app] in K1. split.
        * destruct K1 as [(G1 & R1 & OK1 & FV1 & Inc1 & EE1 & Ed1 & Ez1 & Ep1) N1 I1 O1].
          assert (EW : (L ++ [n]) ++ [] ++ q1 = L ++ [n] ++ q1) by (rewrite <- app_assoc; reflexivity).
          constructor; cbn [app] in *; rewrite ?EW; [|exact N1|exact I1|exact O1]. exists G1. split; [exact R1|]. split; [exact OK1|]. split; [exact FV1|]. split; [exact Inc1|]. split; [|auto].
          intros u v. rewrite EE1. rewrite in_app_iff. simpl. split.
          -- intros (A & B & C). split; [exact A|]. split; [|intros [X _]; discriminate]. intros [X|[<-|[]]]; [contradiction|]. apply C. split; [reflexivity|].
             apply outs_In. apply EE. split; [exact A|]. split; [exact B|]. intros [X _]. discriminate.
          -- intros (A & B & _). split; [exact A|]. split; [tauto|]. intros [[= <-] _]. apply B. right. left. reflexivity.
        * destruct K1 as [_ N1 I1 _]. assert (X := NoDup_incl_length N1 I1). rewrite app_length in X. simpl in X. rewrite app_length. simpl. lia.
    - constructor; cbn [app].
      + exists G. split; [exact HR|]. split; [exact HG|]. split; [reflexivity|]. split; [apply incl_refl|]. split; [intros u v; simpl; split; [intros X; split; [exact X|]; split; [tauto|intros [Y _]; discriminate]|tauto]|].
        split; [exact Hd|]. subst q0. split.
        * intros x Hx. apply filter_In in Hx as [_ Hx]. apply Z.eqb_eq in Hx. exact Hx.
        * intros x Hx Hn. assert (P := indeg_nonneg G x). assert (indeg G x <> 0); [|lia]. intros E. apply Hn. apply filter_In. split; [exact Hx|]. apply Z.eqb_eq. exact E.
      + subst q0. apply NoDup_filter. apply (ok_v _ HG).
      + subst q0. intros x Hx. apply filter_In in Hx. tauto.
      + subst q0. intros l1 v l2 E u Hu. exfalso. assert (Hv : In v (zeros V)) by (rewrite E; apply in_or_app; right; left; reflexivity).
        apply filter_In in Hv as [_ Hv]. apply Z.eqb_eq in Hv. apply (proj1 (indeg_zero G v HG) Hv u). exact Hu.
    - simpl. lia.
  Qed.

  (** a finite set in which every element has a predecessor contains a cycle *)
  Fixpoint chain (c : list string) : Prop := match c with x :: ((y :: _) as c') => is_edge G x y /\ chain c' | _ => True end.
  Lemma walk_cons x y n v : is_edge G x y -> walk G y n v -> walk G x (S n) v.
  Proof. intros He Hw. induction Hw as [|n a b Hw IH Hab]; [apply (walk_snoc G x O x y); [constructor|exact He]|]. apply (walk_snoc G x (S n) a b IH Hab). Qed.
  Lemma chain_walk c : forall x y, chain (x :: c) -> In y (x :: c) -> exists n, walk G x n y.
  Proof.
    induction c as [|z c IH]; intros x y Hc Hy.
    - destruct Hy as [<-|[]]. exists O. constructor.
    - destruct Hy as [<-|Hy]; [exists O; constructor|]. destruct Hc as [He Hc]. destruct (IH z y Hc Hy) as [n Hn]. exists (S n). apply walk_cons with z; assumption.
  Qed.
  Lemma preds_cycle R : R <> [] -> (forall v, In v R -> exists u, In u R /\ is_edge G u v) -> exists v n, walk G v (S n) v.
  Proof.
    intros HR0 HP.
    assert (A : forall k, (exists v n, walk G v (S n) v) \/ exists x c, length (x :: c) = S k /\ NoDup (x :: c) /\ incl (x :: c) R /\ chain (x :: c)).
    { induction k as [|k [IH|(x & c & E1 & E2 & E3 & E4)]].
      - destruct R as [|x R]; [contradiction|]. right. exists x, []. split; [reflexivity|]. split; [constructor; [intros []|constructor]|]. split; [intros y [<-|[]]; left; reflexivity|exact Logic.I].
      - left. exact IH.
      - destruct (HP x (E3 x (or_introl eq_refl))) as (u & Hu & He). destruct (in_dec_s u (x :: c)) as [Hi|Hi].
        + left. destruct (chain_walk c x u E4 Hi) as [n Hn]. exists x, n. apply (walk_snoc G x n u x Hn He).
        + right. exists u, (x :: c). split; [simpl in *; lia|]. split; [constructor; assumption|]. split; [intros y [<-|Hy]; [exact Hu|apply E3; exact Hy]|]. split; assumption. }
    destruct (A (length R)) as [H|(x & c & E1 & E2 & E3 & _)]; [exact H|]. assert (X := NoDup_incl_length E2 E3). lia.
  Qed.

  Fixpoint idx (x : string) (l : list string) : nat := match l with [] => O | y :: l' => if String.eqb x y then O else S (idx x l') end.
  Lemma idx_lt a u b w c : NoDup (a ++ u :: b ++ w :: c) -> (idx u (a ++ u :: b ++ w :: c) < idx w (a ++ u :: b ++ w :: c))%nat.
  Proof.
    induction a as [|y a IH]; intros HN; cbn [app idx] in *; inversion HN; subst.
    - rewrite String.eqb_refl. destruct (SE w u) as [->|]; [|lia]. exfalso. apply H1. apply in_or_app. right. left. reflexivity.
    - destruct (SE u y) as [->|]; [exfalso; apply H1; apply in_or_app; right; left; reflexivity|].
      destruct (SE w y) as [->|]; [exfalso; apply H1; apply in_or_app; right; right; apply in_or_app; right; left; reflexivity|].
      apply -> Nat.succ_lt_mono. apply IH. exact H2.
  Qed.
  Lemma linear_acyclic L : NoDup L -> (forall u v, is_edge G u v -> exists a b c, L = a ++ u :: b ++ v :: c) -> acyclic G.
  Proof.
    intros HN H v n Hw.
    assert (P : forall u v, is_edge G u v -> (idx u L < idx v L)%nat) by (intros u w Huw; destruct (H u w Huw) as (a & b & c & ->); apply idx_lt; exact HN).
    assert (W : forall n v', walk G v (S n) v' -> (idx v L < idx v' L)%nat).
    { induction n0 as [|k IH]; intros v' Hv'; inversion Hv' as [|k' u v2 Hu He]; subst.
      - inversion Hu; subst. apply P. exact He.
      - specialize (IH u Hu). specialize (P u v' He). lia. }
    specialize (W n v Hw). lia.
  Qed.

  Lemma kahn_eq : kahn g0 =
    (d <- forM (al_vertices g0) count_body (fold_left (fun d u => sdset d u 0) (al_vertices g0) []) ;;
     ' (S0, d) <- forM (al_vertices g0) start_body ([], d) ;;
     ' (L, g, d) <- while_loop (S (length (al_vertices g0))) main_body (S0, d, g0, []) ;;
     match d with _ :: _ => Raise ValueError | [] => Ret (L, g) end).
  Proof. reflexivity. Qed.
  Lemma kahn_main : (acyclic G -> exists L g, kahn g0 = Ret (L, g) /\ linear_extension G L /\ al_rep g (V, []) /\ dg_ok (V, [])) /\
                    (~ acyclic G -> kahn g0 = Raise ValueError).
  Proof.
    rewrite kahn_eq. rewrite (rep_v _ _ HR). fold V.
    destruct (proj1 (wp_ex _ _ _) count_ok) as (d0 & -> & Hd0). cbn [bind].
    destruct (proj1 (wp_ex _ _ _) (start_ok d0 Hd0)) as ([q1 d1] & -> & Hq1 & Hd1). cbn [bind].
    destruct (proj1 (wp_ex _ _ _) (main_loop d1 q1 Hq1 Hd1)) as ([[L g] d] & -> & [(G' & R' & OK' & FV & Inc & EE & Ed & Ez & Ep) N I O]). cbn [bind].
    cbn [app] in *. rewrite app_nil_r in *.
    assert (Full : d = [] -> linear_extension G L /\ al_rep g (V, []) /\ dg_ok (V, [])).
    { intros ->. assert (VL : incl V L).
      { intros x Hx. destruct (in_dec_s x L) as [X|X]; [exact X|]. exfalso. assert (Y := Ed x). apply mem_true in Hx. apply mem_false in X. rewrite Hx, X in Y. discriminate. }
      split; [split|].
      - apply NoDup_Permutation; [exact N|apply (ok_v _ HG)|]. intros x. split; [apply I|apply VL].
      - intros u v Huv. destruct (ok_in _ HG u v Huv) as [_ Hv]. apply VL in Hv. apply in_split in Hv as (l1 & l2 & E). assert (Hu := O l1 v l2 E u Huv).
        apply in_split in Hu as (a & b & ->). exists a, b, l2. rewrite E, <- app_assoc. reflexivity.
      - assert (NE : snd G' = []).
        { destruct (snd G') as [|e E'] eqn:Eq; [reflexivity|]. exfalso. assert (X : is_edge G' (fst (fst e)) (snd (fst e))).
          { unfold is_edge, dg_edges. rewrite Eq. left. destruct (fst e); reflexivity. }
          apply EE in X as (X1 & X2 & _). apply X2. apply VL. apply (ok_in _ HG _ _ X1). }
        destruct G' as [V' E']. simpl in FV, NE. subst V' E'. split; [exact R'|exact OK']. }
    assert (Part : d <> [] -> ~ acyclic G).
    { intros Hd AC. destruct d as [|[x k] d]; [contradiction|]. set (R := filter (fun x => negb (mem x L)) V).
      assert (Hx := Ed x). cbn [DsfModel.dget] in Hx. rewrite String.eqb_refl in Hx. destruct (mem x V) eqn:Hxv, (mem x L) eqn:HxL; cbn in Hx; try discriminate.
      destruct (preds_cycle R) as (v & n & Hw).
      - intros E. assert (X : In x R) by (apply filter_In; rewrite HxL; split; [apply mem_true; exact Hxv|reflexivity]). rewrite E in X. exact X.
      - intros v Hv. apply filter_In in Hv as [Hv HvL]. apply negb_true_iff, mem_false in HvL. assert (P := Ep v Hv HvL).
        assert (X : exists u, In u V /\ mem v (outs (snd G') u) = true).
        { unfold indeg in P. rewrite FV in P. clear - P. induction V as [|a V' IH]; simpl in P; [lia|]. destruct (mem v (outs (snd G') a)) eqn:E.
          - exists a. split; [left; reflexivity|exact E].
          - destruct IH as (u & Hu & Eu); [simpl in P; lia|]. exists u. split; [right; exact Hu|exact Eu]. }
        destruct X as (u & Hu & Eu). apply mem_true, outs_In in Eu. apply EE in Eu as (A & B & _). exists u. split; [|exact A]. apply filter_In. split; [exact Hu|].
        apply negb_true_iff, mem_false. exact B.
      - apply (AC v n Hw). }
    split; intros AC.
    - destruct d as [|e d]; [|exfalso; apply Part; [discriminate|exact AC]]. destruct (Full eq_refl) as (A & B & C). exists L, g. auto.
    - destruct d as [|e d]; [|reflexivity]. exfalso. apply AC. destruct (Full eq_refl) as ([P H] & _). apply (linear_acyclic L N H).
  Qed.
End K.
