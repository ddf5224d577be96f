(** Bellman-Ford (C78) and Floyd-Warshall (C80). *)
From Coq Require Import Strings.String Strings.Ascii.
From Verif Require Import Base DsfModel GraphModel GraphSpec GraphDict GraphProofs PathModel.
Import List.

(** total correctness with an exceptional postcondition *)
Definition wpx {A} (X : exn -> Prop) (m : res A) (Q : A -> Prop) : Prop := match m with Ret a => Q a | Raise e => X e | OutOfFuel => False end.
Lemma wpx_bind A B X (m : res A) (k : A -> res B) Q : wpx X m (fun a => wpx X (k a) Q) -> wpx X (bind m k) Q.
Proof. destruct m; simpl; auto. Qed.
Lemma wpx_mono A X (m : res A) (P Q : A -> Prop) : wpx X m P -> (forall a, P a -> Q a) -> wpx X m Q.
Proof. destruct m; simpl; auto. Qed.
Lemma wpx_forM B S X (body : B -> S -> res S) (I : list B -> S -> Prop) l :
  (forall pre b post s, l = pre ++ b :: post -> I pre s -> wpx X (body b s) (I (pre ++ [b]))) -> forall s, I [] s -> wpx X (forM l body s) (I l).
Proof.
  intros Hb. assert (G : forall rest pre s, l = pre ++ rest -> I pre s -> wpx X (forM rest body s) (I l)).
  { induction rest as [|b rest IH]; intros pre s E HI.
    - simpl. rewrite app_nil_r in E. subst l. exact HI.
    - simpl. apply wpx_bind. eapply wpx_mono; [apply (Hb pre b rest s E HI)|]. intros s' HI'. apply (IH (pre ++ [b])); [rewrite <- app_assoc; exact E|exact HI']. }
  intros s HI; apply (G l []); auto.
Qed.
Lemma wpx_while S R X (I : S -> Prop) (m : S -> nat) (Q : R -> Prop) body :
  (forall s, I s -> wpx X (body s) (fun r => match r with Next s' => I s' /\ (m s' < m s)%nat | Break r => Q r end)) ->
  forall fuel s, I s -> (m s < fuel)%nat -> wpx X (while_loop fuel body s) Q.
Proof.
  intros Hb fuel; induction fuel as [|f IH]; intros s HI Hm; [lia|]. cbn [while_loop]. specialize (Hb s HI).
  destruct (body s) as [[s'|r]| |]; simpl in Hb; try contradiction; [|exact Hb|exact Hb]. destruct Hb as [HI' Hm']; apply IH; [exact HI'|lia].
Qed.

Section BF.
  Context (g : gview) (G : dg) (HG : represents g G) (HC : represents_costs g G) (HW : weighted G) (s : string) (Hs : In s (fst G)).
  Notation V := (fst G).
  Lemma rep_ok : dg_ok G.
  Proof. destruct HG as (_ & A & B & C & D & _). constructor; assumption. Qed.
  Lemma rep_verts : gv_vertices g = V.
  Proof. apply HG. Qed.
  Lemma cost_dom u v c : has_cost G u v c -> In u V /\ In v V.
  Proof. intros H. apply (ok_in _ rep_ok). eapply cost_edge. exact H. Qed.
  Lemma weight_get u v c : has_cost G u v c -> dgetE (gv_weights g) (ekey u v) = Ret (u, v, c).
  Proof.
    intros H. assert (X := wrep_get (gv_weights g) G u v HC rep_ok). destruct (cost_ord _ _ _ _ rep_ok H) as [Ou _]. specialize (X (ordinary_no_us _ Ou)).
    unfold dgetE. destruct (sdget (gv_weights g) (ekey u v)) as [e|]; [|exfalso; apply (X c H)]. destruct X as (c' & -> & Hc'). rewrite (cost_fun G u v c c' rep_ok H Hc'). reflexivity.
  Qed.
  Definition W : Z := wsum g.
  Lemma fr_nonneg (l : list (string * edge)) : 0 <= fold_right (fun e n => Z.abs (e_val (snd e)) + n) 0 l.
  Proof. induction l as [|e l IH]; cbn [fold_right]; [lia|]. set (x := e_val (snd e)). lia. Qed.
  Lemma wsum_nonneg : 0 <= W.
  Proof. apply fr_nonneg. Qed.
  Lemma cost_le u v c : has_cost G u v c -> Z.abs c <= W.
  Proof.
    intros H. assert (X : In (ekey u v, (u, v, c)) (gv_weights g)) by (apply HC; exists u, v, c; auto).
    unfold W, wsum. induction (gv_weights g) as [|e l IH]; [destruct X|]. cbn [fold_right].
    assert (P := fr_nonneg l).
    destruct X as [->|X]; [unfold e_val at 1; cbn [snd]; lia|]. specialize (IH X). set (x := e_val (snd e)) in *. lia.
  Qed.

  (** how a distance came about: the latest vertex first *)
  Inductive hist : list (string * Z) -> Prop :=
  | hist_nil : hist [(s, 0)]
  | hist_cons v c u d h : hist ((u, d) :: h) -> has_cost G u v c -> (forall e, In (v, e) ((u, d) :: h) -> d + c < e) -> hist ((v, d + c) :: (u, d) :: h).
  Lemma hist_bound h : hist h -> forall x d t, h = (x, d) :: t -> Z.abs d <= len t * W.
  Proof.
    induction 1 as [|v c u d h Hh IH Hc Hr]; intros x e t E.
    - injection E as <- <- <-. unfold len. simpl. lia.
    - injection E as <- <- <-. specialize (IH u d h eq_refl). assert (X := cost_le u v c Hc). unfold len in *. simpl. lia.
  Qed.
  Lemma hist_walk h : hist h -> forall x d t, h = (x, d) :: t -> cwalk G s (length t) d x.
  Proof.
    induction 1 as [|v c u d h Hh IH Hc Hr]; intros x e t E; injection E as <- <- <-; [constructor|]. simpl. apply cwalk_snoc with u; [|exact Hc]. apply IH. reflexivity.
  Qed.
  Lemma hist_in h : hist h -> incl (map fst h) V.
  Proof. induction 1 as [|v c u d h Hh IH Hc Hr]; intros x Hx; [destruct Hx as [<-|[]]; exact Hs|]. destruct Hx as [<-|Hx]; [apply (cost_dom u v c Hc)|apply IH; exact Hx]. Qed.
  (** a walk between two entries *)
  Lemma cwalk_trans a n w b : cwalk G a n w b -> forall m w' c, cwalk G b m w' c -> exists k, cwalk G a k (w + w') c /\ (m <= k)%nat.
  Proof.
    intros H1 m w' c H2. induction H2 as [|m w2 u v c H2 IH Hc].
    - exists n. rewrite Z.add_0_r. split; [exact H1|lia].
    - destruct IH as (k & Hk & Hm). exists (S k). split; [|lia]. rewrite Z.add_assoc. apply cwalk_snoc with u; assumption.
  Qed.
  Lemma hist_seg h : hist h -> forall x d t, h = (x, d) :: t -> forall y e, In (y, e) t -> exists n, cwalk G y (S n) (d - e) x.
  Proof.
    induction 1 as [|v c u d h Hh IH Hc Hr]; intros x dx t E; injection E as <- <- <-; intros y e Hy; [destruct Hy|].
    destruct Hy as [[= <- <-]|Hy].
    - exists O. replace (d + c - d) with (0 + c) by lia. apply cwalk_snoc with u; [constructor|exact Hc].
    - destruct (IH u d h eq_refl y e Hy) as (n & Hn). exists (S n). replace (d + c - e) with (d - e + c) by lia. apply cwalk_snoc with u; assumption.
  Qed.
  Definition neg_cycle : Prop := exists v n w, reachable G s v /\ cwalk G v (S n) w v /\ w < 0.
  Lemma cwalk_walk a n w b : cwalk G a n w b -> walk G a n b.
  Proof. induction 1 as [|n w u v c H IH Hc]; [constructor|]. apply walk_snoc with u; [exact IH|eapply cost_edge; exact Hc]. Qed.
  Lemma hist_in_walk h : hist h -> forall x d, In (x, d) h -> reachable G s x.
  Proof.
    induction 1 as [|v c u d h Hh IH Hc Hr]; intros x e [[= <- <-]|Hx].
    - exists O. constructor.
    - destruct Hx.
    - destruct (IH u d (or_introl eq_refl)) as [n Hn]. exists (S n). apply walk_snoc with u; [exact Hn|eapply cost_edge; exact Hc].
    - apply (IH x e Hx).
  Qed.
  Lemma hist_long h : hist h -> (length V < length h)%nat -> neg_cycle.
  Proof.
    intros Hh HL.
    assert (D : ~ NoDup (map fst h)). { intros N. assert (X := NoDup_incl_length N (hist_in h Hh)). rewrite map_length in X. lia. }
    clear HL. induction Hh as [|v c u d h Hh IH Hc Hr].
    - exfalso. apply D. simpl. constructor; [intros []|constructor].
    - destruct (in_dec_s v (map fst ((u, d) :: h))) as [Hv|Hv].
      + apply in_map_iff in Hv as ([v' e] & E & Hv). simpl in E. subst v'. assert (Lt := Hr e Hv).
        destruct (hist_seg _ (hist_cons v c u d h Hh Hc Hr) v (d + c) _ eq_refl v e Hv) as (n & Hn). exists v, n, (d + c - e). split; [|split; [exact Hn|lia]].
        apply (hist_in_walk _ Hh v e Hv).
      + apply IH. intros N. apply D. simpl. constructor; [exact Hv|exact N].
  Qed.

  (** ** the loop *)
  Record binv (cur : option string) (pre : list string) (st : bf) : Prop := {
    b_k1 : map fst (bf_dist st) = V; b_k2 : map fst (bf_pred st) = V; b_k3 : map fst (bf_vis st) = V; b_k4 : map fst (bf_cnt st) = V;
    b_que : incl (bf_que st) V;
    b_vis : forall x, sdget (bf_vis st) x = Some true -> In x (bf_que st);
    b_src : exists d, sdget (bf_dist st) s = Some (Some d) /\ d <= 0;
    b_hist : forall x d, sdget (bf_dist st) x = Some (Some d) -> exists h, hist ((x, d) :: h) /\ sdget (bf_cnt st) x = Some (len h) /\ len h < len V /\
               forall y e, In (y, e) ((x, d) :: h) -> exists d', sdget (bf_dist st) y = Some (Some d') /\ d' <= e;
    b_pred : forall x u, sdget (bf_pred st) x = Some (Some u) -> exists c dx du, has_cost G u x c /\ sdget (bf_dist st) x = Some (Some dx) /\ sdget (bf_dist st) u = Some (Some du) /\ du + c <= dx;
    b_pred0 : forall x d, sdget (bf_dist st) x = Some (Some d) -> sdget (bf_pred st) x = Some None -> x = s /\ d = 0;
    b_rel : forall x d, sdget (bf_dist st) x = Some (Some d) -> In x (bf_que st) \/
              forall y c, has_cost G x y c -> (cur = Some x -> In y pre) -> exists dy, sdget (bf_dist st) y = Some (Some dy) /\ dy <= d + c }.

  Definition pot (st : bf) (x : string) : Z := match sdget (bf_dist st) x with Some (Some d) => d + len V * W | _ => 2 * len V * W + 1 end.
  Definition meas (st : bf) : Z := 2 * zsum (pot st) V + len (bf_que st).
  Lemma lenV_pos : 1 <= len V.
  Proof. unfold len. destruct V; [destruct Hs|simpl; lia]. Qed.
  Lemma pot_nonneg cur pre st x : binv cur pre st -> 0 <= pot st x <= 2 * len V * W + 1.
  Proof.
    intros B. unfold pot. assert (P := lenV_pos). assert (P2 := wsum_nonneg). destruct (sdget (bf_dist st) x) as [[d|]|] eqn:E; try (split; nia).
    destruct (b_hist _ _ _ B x d E) as (h & Hh & _ & Hl & _). assert (X := hist_bound _ Hh x d h eq_refl).
    assert (len h * W <= len V * W) by nia. lia.
  Qed.
  Lemma keyget {A} (d : list (string * A)) x : map fst d = V -> In x V -> exists v, sdget d x = Some v.
  Proof. intros E H. apply sget_some. rewrite E. exact H. Qed.
  Lemma keyset {A} (d : list (string * A)) x v : map fst d = V -> In x V -> map fst (sdset d x v) = V.
  Proof. intros E H. rewrite sset_keys, E. apply mem_true in H. rewrite H. reflexivity. Qed.

  Lemma relax_ok u pre v st c : has_cost G u v c -> binv (Some u) pre st ->
    wpx (fun e => e = ValueError /\ neg_cycle) (bf_relax g u v st) (fun st' => binv (Some u) (pre ++ [v]) st' /\ meas st' <= meas st).
  Proof.
    intros Hc B. destruct (cost_dom u v c Hc) as [Hu Hv]. unfold bf_relax.
    destruct (keyget (bf_dist st) u (b_k1 _ _ _ B) Hu) as [du Edu]. unfold dgetE at 1. rewrite Edu. cbn [bind].
    destruct du as [du|].
    2:{ split; [|lia]. destruct B as [B1 B2 B3 B4 B5 B6 B7 B8 B9 B9' B10]. constructor; try assumption. intros x d E. destruct (B10 x d E) as [X|X]; [left; exact X|]. right.
        intros y cy Hy Hp. apply (X y cy Hy). intros [= <-]. exfalso. congruence. }
    rewrite (weight_get u v c Hc). cbn [bind e_val snd]. destruct (keyget (bf_dist st) v (b_k1 _ _ _ B) Hv) as [dv Edv].
    unfold dgetE at 1. rewrite Edv. cbn [bind oadd].
    destruct (oltb (Some (du + c)) dv) eqn:Lt.
    2:{ split; [|lia]. destruct B as [B1 B2 B3 B4 B5 B6 B7 B8 B9 B9' B10]. constructor; try assumption. intros x d E. destruct (B10 x d E) as [X|X]; [left; exact X|]. right.
        intros y cy Hy Hp. destruct (SD x u) as [->|Hx].
        - destruct (SD y v) as [->|Hyv].
          + rewrite (cost_fun G u v cy c rep_ok Hy Hc). rewrite Edu in E. injection E as <-. destruct dv as [dv|]; [|discriminate]. simpl in Lt. apply Z.ltb_ge in Lt. exists dv. auto.
          + apply (X y cy Hy). intros _. specialize (Hp eq_refl). apply in_app_or in Hp as [Hp|[<-|[]]]; [exact Hp|contradiction].
        - apply (X y cy Hy). intros [= <-]. contradiction. }
    destruct (keyget (bf_cnt st) u (b_k4 _ _ _ B) Hu) as [cu Ecu]. unfold dgetE at 1. rewrite Ecu. cbn [bind].
    destruct (b_hist _ _ _ B u du Edu) as (h & Hh & Hcnt & Hl & Hle). assert (cu = len h) by congruence. subst cu.
    assert (Hdv : forall d', dv = Some d' -> du + c < d') by (intros d' ->; simpl in Lt; apply Z.ltb_lt in Lt; exact Lt).
    assert (NH : hist ((v, du + c) :: (u, du) :: h)).
    { apply hist_cons; [exact Hh|exact Hc|]. intros e He. destruct (Hle v e He) as (d' & E' & Hd'). rewrite Edv in E'. injection E' as ->. specialize (Hdv d' eq_refl). lia. }
    destruct (Z.leb_spec (len (gv_vertices g)) (len h + 1)) as [Big|Big]; rewrite rep_verts in Big.
    { simpl. split; [reflexivity|]. apply (hist_long _ NH). unfold len in Big. simpl. lia. }
    set (dist' := sdset (bf_dist st) v (Some (du + c))).
    (* facts about the new distances *)
    assert (GD : forall x, sdget dist' x = if String.eqb x v then Some (Some (du + c)) else sdget (bf_dist st) x) by (intros x; unfold dist'; apply sget_set).
    assert (Mono : forall x d, sdget (bf_dist st) x = Some (Some d) -> exists d', sdget dist' x = Some (Some d') /\ d' <= d).
    { intros x d E. rewrite GD. destruct (SE x v) as [->|]; [|exists d; split; [exact E|lia]]. exists (du + c). split; [reflexivity|]. rewrite Edv in E. injection E as ->. specialize (Hdv d eq_refl). lia. }
    assert (NB : forall vis que, map fst vis = V -> incl que V -> (forall x, sdget vis x = Some true -> In x que) -> In v que -> incl (bf_que st) que ->
      binv (Some u) (pre ++ [v]) (mkbf dist' (sdset (bf_pred st) v (Some u)) vis (sdset (bf_cnt st) v (len h + 1)) que)).
    { intros vis que K Iq Hvis Hvq Hqq. destruct B as [B1 B2 B3 B4 B5 B6 B7 B8 B9 B9' B10]. constructor; cbn [bf_dist bf_pred bf_vis bf_cnt bf_que].
      - apply keyset; assumption.
      - apply keyset; assumption.
      - exact K.
      - apply keyset; assumption.
      - exact Iq.
      - exact Hvis.
      - destruct B7 as (d & E & Hd). destruct (Mono s d E) as (d' & E' & Hd'). exists d'. split; [exact E'|lia].
      - intros x d. rewrite GD, sget_set. destruct (SE x v) as [->|Hx].
        + intros [= <-]. exists ((u, du) :: h). split; [exact NH|]. split; [f_equal; unfold len; simpl; lia|]. split; [unfold len in *; simpl; lia|].
          intros y e [[= <- <-]|Hy]; [exists (du + c); rewrite GD, String.eqb_refl; split; [reflexivity|lia]|].
          destruct (Hle y e Hy) as (d' & E' & Hd'). destruct (Mono y d' E') as (d2 & E2 & Hd2). exists d2. split; [exact E2|lia].
        + intros E. destruct (B8 x d E) as (h2 & A1 & A2 & A3 & A4). exists h2. split; [exact A1|]. split; [exact A2|]. split; [exact A3|].
          intros y e Hy. destruct (A4 y e Hy) as (d' & E' & Hd'). destruct (Mono y d' E') as (d2 & E2 & Hd2). exists d2. split; [exact E2|lia].
      - intros x a. rewrite sget_set. destruct (SE x v) as [->|Hx].
        + intros [= <-]. destruct (Mono u du Edu) as (d2 & E2 & Hd2). exists c, (du + c), d2. split; [exact Hc|]. split; [rewrite GD, String.eqb_refl; reflexivity|]. split; [exact E2|lia].
        + intros E. destruct (B9 x a E) as (c1 & dx & da & A1 & A2 & A3 & A4). destruct (Mono a da A3) as (d2 & E2 & Hd2). exists c1, dx, d2. split; [exact A1|].
          split; [rewrite GD; destruct (SE x v); [contradiction|exact A2]|]. split; [exact E2|lia].
      - intros x d. rewrite GD, sget_set. destruct (SE x v) as [->|Hx]; [discriminate|]. apply B9'.
      - intros x d. rewrite GD. destruct (SE x v) as [->|Hx]; [left; exact Hvq|]. intros E. destruct (B10 x d E) as [X|X]; [left; apply Hqq; exact X|]. right.
        intros y cy Hy Hp. destruct (SD y v) as [->|Hyv].
        + destruct (SD x u) as [->|Hxu].
          * rewrite (cost_fun G u v cy c rep_ok Hy Hc). rewrite Edu in E. injection E as <-. exists (du + c). rewrite GD, String.eqb_refl. split; [reflexivity|lia].
          * destruct (X v cy Hy) as (dy & Ey & Hdy); [intros [= <-]; contradiction|]. destruct (Mono v dy Ey) as (d2 & E2 & Hd2). exists d2. split; [exact E2|lia].
        + destruct (X y cy Hy) as (dy & Ey & Hdy).
          * intros Hcur. specialize (Hp Hcur). apply in_app_or in Hp as [Hp|[<-|[]]]; [exact Hp|contradiction].
          * destruct (Mono y dy Ey) as (d2 & E2 & Hd2). exists d2. split; [exact E2|lia]. }
    assert (MS : forall vis pr cnt que, len que <= len (bf_que st) + 1 -> meas (mkbf dist' pr vis cnt que) <= meas st - 1).
    { intros vis pr cnt que Hq. unfold meas. cbn [bf_que].
      assert (Z1 : zsum (pot (mkbf dist' pr vis cnt que)) V <= zsum (pot st) V - 1).
      { rewrite (zsum_bump _ (pot st) V v (pot (mkbf dist' pr vis cnt que) v - pot st v)).
        - unfold pot at 2 3. cbn [bf_dist]. rewrite GD, String.eqb_refl, Edv. assert (NHb := hist_bound _ NH v (du + c) _ eq_refl).
          assert (PW := wsum_nonneg). destruct dv as [d|]; [specialize (Hdv d eq_refl); lia|]. assert (len ((u, du) :: h) * W <= len V * W) by (apply Z.mul_le_mono_nonneg_r; [exact PW|unfold len in *; simpl; lia]). lia.
        - apply (ok_v _ rep_ok).
        - exact Hv.
        - lia.
        - intros x Hx. unfold pot. cbn [bf_dist]. rewrite GD. destruct (SE x v); [contradiction|reflexivity]. }
      lia. }
    destruct (keyget (bf_vis st) v (b_k3 _ _ _ B) Hv) as [iv Eiv]. cbn [bf_vis]. unfold dgetE. rewrite Eiv. cbn [bind]. destruct iv; cbn [negb wpx bf_dist bf_pred bf_vis bf_cnt bf_que].
    - split.
      + apply NB; [apply (b_k3 _ _ _ B)|apply (b_que _ _ _ B)|apply (b_vis _ _ _ B)|apply (b_vis _ _ _ B v Eiv)|apply incl_refl].
      + assert (X := MS (bf_vis st) (sdset (bf_pred st) v (Some u)) (sdset (bf_cnt st) v (len h + 1)) (bf_que st)). lia.
    - split.
      + apply NB.
        * apply keyset; [apply (b_k3 _ _ _ B)|exact Hv].
        * intros x Hx. apply in_app_or in Hx as [Hx|[<-|[]]]; [apply (b_que _ _ _ B); exact Hx|exact Hv].
        * intros x. rewrite sget_set. destruct (SE x v) as [->|]; intros E; apply in_or_app; [right; left; reflexivity|left; apply (b_vis _ _ _ B); exact E].
        * apply in_or_app. right. left. reflexivity.
        * intros x Hx. apply in_or_app. left. exact Hx.
      + assert (X := MS (sdset (bf_vis st) v true) (sdset (bf_pred st) v (Some u)) (sdset (bf_cnt st) v (len h + 1)) (bf_que st ++ [v])).
        assert (Y : len (bf_que st ++ [v]) <= len (bf_que st) + 1) by (unfold len; rewrite app_length; simpl; lia). specialize (X Y). lia.
  Qed.

  Lemma bf_init_ok : binv None [] (bf_init g s) /\ bf_que (bf_init g s) = [s].
  Proof.
    unfold bf_init. rewrite rep_verts.
    set (F := fun st v => mkbf (sdset (bf_dist st) v None) (sdset (bf_pred st) v None) (sdset (bf_vis st) v false) (sdset (bf_cnt st) v 0) (bf_que st)).
    assert (A : forall l st, NoDup (map fst (bf_dist st) ++ l) -> map fst (bf_pred st) = map fst (bf_dist st) -> map fst (bf_vis st) = map fst (bf_dist st) -> map fst (bf_cnt st) = map fst (bf_dist st) ->
      (forall x y, sdget (bf_dist st) x = Some y -> y = None) -> (forall x y, sdget (bf_pred st) x = Some y -> y = None) -> (forall x y, sdget (bf_vis st) x = Some y -> y = false) -> (forall x y, sdget (bf_cnt st) x = Some y -> y = 0) ->
      let st' := fold_left F l st in map fst (bf_dist st') = map fst (bf_dist st) ++ l /\ map fst (bf_pred st') = map fst (bf_dist st) ++ l /\ map fst (bf_vis st') = map fst (bf_dist st) ++ l /\ map fst (bf_cnt st') = map fst (bf_dist st) ++ l /\
      (forall x y, sdget (bf_dist st') x = Some y -> y = None) /\ (forall x y, sdget (bf_pred st') x = Some y -> y = None) /\ (forall x y, sdget (bf_vis st') x = Some y -> y = false) /\ (forall x y, sdget (bf_cnt st') x = Some y -> y = 0)).
    { induction l as [|a l IH]; intros st N K2 K3 K4 D1 D2 D3 D4.
      - cbn. rewrite !app_nil_r. auto 10.
      - assert (Na : ~ In a (map fst (bf_dist st))) by (intros X; apply NoDup_remove_2 in N; apply N; apply in_or_app; left; exact X).
        cbn [fold_left]. assert (Ek : map fst (bf_dist (F st a)) = map fst (bf_dist st) ++ [a]).
        { unfold F. cbn [bf_dist]. rewrite sset_keys. apply mem_false in Na. rewrite Na. reflexivity. }
        destruct (IH (F st a)) as (X1 & X2 & X3 & X4 & X5 & X6 & X7 & X8); [..|rewrite Ek, <- app_assoc in *; auto 12].
        + rewrite Ek, <- app_assoc. exact N.
        + rewrite Ek. unfold F. cbn [bf_pred]. rewrite sset_keys, K2. apply mem_false in Na. rewrite Na. reflexivity.
        + rewrite Ek. unfold F. cbn [bf_vis]. rewrite sset_keys, K3. apply mem_false in Na. rewrite Na. reflexivity.
        + rewrite Ek. unfold F. cbn [bf_cnt]. rewrite sset_keys, K4. apply mem_false in Na. rewrite Na. reflexivity.
        + intros x y. unfold F. cbn [bf_dist]. rewrite sget_set. destruct (String.eqb x a); [congruence|apply D1].
        + intros x y. unfold F. cbn [bf_pred]. rewrite sget_set. destruct (String.eqb x a); [congruence|apply D2].
        + intros x y. unfold F. cbn [bf_vis]. rewrite sget_set. destruct (String.eqb x a); [congruence|apply D3].
        + intros x y. unfold F. cbn [bf_cnt]. rewrite sget_set. destruct (String.eqb x a); [congruence|apply D4]. }
    destruct (A V (mkbf [] [] [] [] [])) as (X1 & X2 & X3 & X4 & X5 & X6 & X7 & X8); [apply (ok_v _ rep_ok)|reflexivity..|discriminate|discriminate|discriminate|discriminate|].
    cbn [bf_dist map app] in X1, X2, X3, X4. set (st := fold_left F V (mkbf [] [] [] [] [])) in *. split; [|reflexivity].
    assert (GD : forall x d, sdget (sdset (bf_dist st) s (Some 0)) x = Some (Some d) -> x = s /\ d = 0).
    { intros x d. rewrite sget_set. destruct (SE x s) as [->|]; [intros [= <-]; auto|]. intros E. apply X5 in E. discriminate. }
    constructor; cbn [bf_dist bf_pred bf_vis bf_cnt bf_que].
    - apply keyset; [exact X1|exact Hs].
    - exact X2.
    - exact X3.
    - exact X4.
    - intros x [<-|[]]. exact Hs.
    - intros x E. apply X7 in E. discriminate.
    - exists 0. rewrite sget_set_eq. split; [reflexivity|lia].
    - intros x d E. apply GD in E as [-> ->]. exists []. split; [constructor|]. destruct (keyget (bf_cnt st) s X4 Hs) as [k Ek]. assert (k = 0) by (apply (X8 s k Ek)). subst k.
      split; [exact Ek|]. split; [assert (P := lenV_pos); unfold len at 1; simpl; lia|]. intros y e [[= <- <-]|[]]. exists 0. rewrite sget_set_eq. split; [reflexivity|lia].
    - intros x u E. apply X6 in E. discriminate.
    - intros x d E _. apply GD in E. exact E.
    - intros x d E. apply GD in E as [-> ->]. left. left. reflexivity.
  Qed.

  Definition least (v : string) (d : Z) : Prop := (exists n, cwalk G s n d v) /\ forall n w, cwalk G s n w v -> d <= w.
  Definition bf_result (r : list (string * option Z) * list (string * option string)) : Prop :=
    map fst (fst r) = V /\ map fst (snd r) = V /\
    (forall v d, In (v, Some d) (fst r) -> least v d) /\ (forall v, In (v, None) (fst r) -> ~ reachable G s v) /\
    (forall v, In (v, None) (snd r) -> v = s \/ ~ reachable G s v) /\
    (forall v u, In (v, Some u) (snd r) -> exists c dv du, has_cost G u v c /\ least v dv /\ least u du /\ dv = du + c).

  Lemma bf_main : wpx (fun e => e = ValueError /\ neg_cycle) (bellman_ford_all g s) (fun r => bf_result r /\ ~ neg_cycle).
  Proof.
    unfold bellman_ford_all. destruct bf_init_ok as [B0 Q0].
    apply (wpx_while _ _ _ (binv None []) (fun st => Z.to_nat (meas st))).
    - intros st B. destruct (bf_que st) as [|u q] eqn:Eq.
      + simpl. (* final *)
        assert (Rel : forall x d, sdget (bf_dist st) x = Some (Some d) -> forall y c, has_cost G x y c -> exists dy, sdget (bf_dist st) y = Some (Some dy) /\ dy <= d + c).
        { intros x d E y c Hy. destruct (b_rel _ _ _ B x d E) as [X|X]; [rewrite Eq in X; destruct X|]. apply (X y c Hy). discriminate. }
        assert (Low : forall n w v, cwalk G s n w v -> exists d, sdget (bf_dist st) v = Some (Some d) /\ d <= w).
        { intros n w v H. induction H as [|n w u v c H (d & E & Hd) Hc].
          - destruct (b_src _ _ _ B) as (d & E & Hd). exists d. auto.
          - destruct (Rel u d E v c Hc) as (dy & Ey & Hy). exists dy. split; [exact Ey|lia]. }
        assert (Reach : forall v, reachable G s v -> exists d, sdget (bf_dist st) v = Some (Some d)).
        { intros v [n Hn]. induction Hn as [|n u v Hn (d & E) He].
          - destruct (b_src _ _ _ B) as (d & E & _). eauto.
          - destruct (HW u v He) as [c Hc]. destruct (Rel u d E v c Hc) as (dy & Ey & _). eauto. }
        assert (NoNeg : ~ neg_cycle).
        { intros (v & n & w & Hr & Hw & Hneg). destruct (Reach v Hr) as [d E].
          assert (X : forall n w y, cwalk G v n w y -> exists dy, sdget (bf_dist st) y = Some (Some dy) /\ dy <= d + w).
          { intros n' w' y H. induction H as [|n' w' a b c H (da & Ea & Ha) Hc]; [exists d; split; [exact E|lia]|].
            destruct (Rel a da Ea b c Hc) as (dy & Ey & Hy). exists dy. split; [exact Ey|lia]. }
          destruct (X _ _ _ Hw) as (dy & Ey & Hy). rewrite E in Ey. injection Ey as <-. lia. }
        assert (Lst : forall v d, sdget (bf_dist st) v = Some (Some d) -> least v d).
        { intros v d E. split.
          - destruct (b_hist _ _ _ B v d E) as (h & Hh & _). exists (length h). apply (hist_walk _ Hh v d h eq_refl).
          - intros n w Hw. destruct (Low n w v Hw) as (d' & E' & Hd'). congruence. }
        split; [|exact NoNeg]. unfold bf_result. cbn [fst snd]. split; [apply (b_k1 _ _ _ B)|]. split; [apply (b_k2 _ _ _ B)|].
        assert (N1 : NoDup (map fst (bf_dist st))) by (rewrite (b_k1 _ _ _ B); apply (ok_v _ rep_ok)).
        assert (N2 : NoDup (map fst (bf_pred st))) by (rewrite (b_k2 _ _ _ B); apply (ok_v _ rep_ok)).
        split; [|split; [|split]].
        * intros v d Hv. apply Lst. apply In_sget; assumption.
        * intros v Hv Hr. apply In_sget in Hv; [|exact N1]. destruct (Reach v Hr) as [d E]. congruence.
        * intros v Hv. apply In_sget in Hv; [|exact N2]. destruct (sdget (bf_dist st) v) as [[d|]|] eqn:E.
          -- left. apply (b_pred0 _ _ _ B v d E Hv).
          -- right. intros Hr. destruct (Reach v Hr) as [d' E']. congruence.
          -- right. intros Hr. destruct (Reach v Hr) as [d' E']. congruence.
        * intros v u Hv. apply In_sget in Hv; [|exact N2]. destruct (b_pred _ _ _ B v u Hv) as (c & dv & du & Hc & Ev & Eu & Hle).
          destruct (Rel u du Eu v c Hc) as (dv' & Ev' & Hle'). rewrite Ev in Ev'. injection Ev' as <-. exists c, dv, du. split; [exact Hc|]. split; [apply Lst; exact Ev|]. split; [apply Lst; exact Eu|lia].
      + assert (Hu : In u V) by (apply (b_que _ _ _ B); rewrite Eq; left; reflexivity).
        destruct HG as (_ & _ & _ & _ & _ & HN). destruct (HN u Hu) as (l & El & NDl & Hl). rewrite El. cbn [bind]. apply wpx_bind.
        set (st1 := mkbf (bf_dist st) (bf_pred st) (sdset (bf_vis st) u false) (bf_cnt st) q).
        assert (B1 : binv (Some u) [] st1).
        { destruct B as [B1 B2 B3 B4 B5 B6 B7 B8 B9 B9' B10]. constructor; unfold st1; cbn [bf_dist bf_pred bf_vis bf_cnt bf_que]; try assumption.
          - apply keyset; assumption.
          - intros x Hx. apply B5. rewrite Eq. right. exact Hx.
          - intros x. rewrite sget_set. destruct (SE x u) as [->|Hx]; [discriminate|]. intros E. apply B6 in E. rewrite Eq in E. destruct E as [<-|E]; [contradiction|exact E].
          - intros x d E. destruct (SD x u) as [->|Hx]; [right; intros y c Hy Hp; destruct (Hp eq_refl)|]. destruct (B10 x d E) as [X|X]; [left; rewrite Eq in X; destruct X as [<-|X]; [contradiction|exact X]|].
            right. intros y c Hy _. apply (X y c Hy). discriminate. }
        assert (M1 : meas st1 = meas st - 1). { unfold meas. rewrite Eq. unfold st1. cbn [bf_que]. change (pot st1) with (pot st). unfold len. simpl length. rewrite Nat2Z.inj_succ. unfold pot. cbn [bf_dist]. lia. }
        eapply wpx_mono; [apply (wpx_forM _ _ _ (bf_relax g u) (fun pre st' => binv (Some u) pre st' /\ meas st' <= meas st1))|].
        * intros pre v post st2 E [B2 M2]. assert (Hv : is_edge G u v) by (apply Hl; rewrite E; apply in_or_app; right; left; reflexivity).
          destruct (HW u v Hv) as [c Hc]. eapply wpx_mono; [apply (relax_ok u pre v st2 c Hc B2)|]. intros st3 [B3 M3]. split; [exact B3|lia].
        * split; [exact B1|lia].
        * intros st2 [B2 M2]. simpl. assert (B3 : binv None [] st2).
          { destruct B2 as [C1 C2 C3 C4 C5 C6 C7 C8 C9 C9' C10]. constructor; try assumption. intros x d E. destruct (C10 x d E) as [X|X]; [left; exact X|]. right.
            intros y c Hy _. apply (X y c Hy). intros [= <-]. apply Hl. eapply cost_edge. exact Hy. }
          split; [exact B3|]. assert (P : 0 <= meas st2).
          { unfold meas. assert (0 <= zsum (pot st2) V); [|unfold len; lia]. assert (Q : forall l, 0 <= zsum (pot st2) l); [|apply Q]. induction l0 as [|a l0 IH]; simpl; [lia|]. assert (X := pot_nonneg _ _ st2 a B3). lia. }
          lia.
    - exact B0.
    - unfold bf_fuel. rewrite rep_verts. fold W. assert (X : meas (bf_init g s) < 2 * len V * (2 * len V * W + 2) + 2).
      { unfold meas. rewrite Q0. assert (Y : zsum (pot (bf_init g s)) V <= len V * (2 * len V * W + 1)).
        { assert (Q : forall l, zsum (pot (bf_init g s)) l <= len l * (2 * len V * W + 1)); [|apply Q]. induction l as [|a l IH]; [unfold len; simpl; lia|].
          simpl. assert (P := pot_nonneg _ _ _ a B0). replace (len (a :: l)) with (1 + len l) by (unfold len; simpl length; lia). lia. }
        assert (P := lenV_pos). replace (len [s]) with 1 by reflexivity. lia. }
      assert (M0 : 0 <= meas (bf_init g s)); [|apply Z2Nat.inj_lt; [exact M0|lia|exact X]]. unfold meas. rewrite Q0. assert (0 <= zsum (pot (bf_init g s)) V); [|unfold len; simpl; lia].
      assert (Q : forall l, 0 <= zsum (pot (bf_init g s)) l); [|apply Q]. induction l as [|a l IH]; simpl; [lia|]. assert (Y := pot_nonneg _ _ _ a B0). lia.
  Qed.
End BF.
