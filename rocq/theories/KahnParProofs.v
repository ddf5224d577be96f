(** Proofs about topological_sort_parallel (C91). *)
From Coq Require Import Strings.String.
From Verif Require Import Base DsfModel GraphModel GraphSpec GraphDict GraphProofs SearchGraphModel KahnProofs KahnParModel KahnParSpec.
Import List.

Definition cnt_edge (d : list (string * Z)) (l : list string) : res (list (string * Z)) :=
  forM l (fun v d => match sdget d v with Some k => Ret (sdset d v (k + 1)) | None => Raise KeyError end) d.
Lemma cnt_edge_nd l : forall d d', cnt_edge d l = Ret d' -> NoDup (map fst d) -> NoDup (map fst d').
Proof.
  induction l as [|v l IH]; intros d d' E N; cbn in E; [injection E as <-; exact N|]. destruct (sdget d v) as [k|]; [|discriminate]. cbn [bind] in E. apply (IH _ _ E). apply sset_nodup, N.
Qed.
Lemma count_nd g l : forall d d', forM l (count_body g) d = Ret d' -> NoDup (map fst d) -> NoDup (map fst d').
Proof.
  induction l as [|u l IH]; intros d d' E N; cbn [forM] in E; [injection E as <-; exact N|]. unfold count_body at 1 in E. destruct (al_neighbors g u) as [ns| |]; try discriminate. cbn [bind] in E. change (forM ns _ d) with (cnt_edge d ns) in E.
  destruct (cnt_edge d ns) as [d1| |] eqn:E1; try discriminate. cbn [bind] in E. apply (IH _ _ E). apply (cnt_edge_nd _ _ _ E1 N).
Qed.
Lemma collect_ok g G : al_rep g G -> dg_ok G -> exists S0, collect_source_nodes g = Ret S0 /\ NoDup S0 /\ forall x, In x S0 <-> In x (fst G) /\ forall u, ~ is_edge G u x.
Proof.
  intros R OK. unfold collect_source_nodes. rewrite (rep_v _ _ R). change (exists S0, bind (forM (fst G) (count_body g) (fold_left (fun d u => sdset d u 0) (fst G) [])) (fun d => Ret (map fst (filter (fun e => snd e =? 0) d))) = Ret S0 /\ NoDup S0 /\ forall x, In x S0 <-> In x (fst G) /\ forall u, ~ is_edge G u x).
  destruct (proj1 (wp_ex _ _ _) (count_ok g G R OK)) as (d & E & Hd). rewrite E. cbn [bind]. eexists. split; [reflexivity|].
  assert (N : NoDup (map fst d)) by (apply (count_nd g _ _ _ E), fold_zero_nodup; constructor). split.
  - clear - N. induction d as [|(x, k) d IH]; [constructor|]. cbn [map fst] in N. inversion N; subst. cbn [filter snd]. destruct (k =? 0); [|auto]. cbn [map fst]. constructor; [|auto]. intros X. apply H1. apply in_map_iff in X as (y & <- & Hy). apply filter_In in Hy as (Hy & _). apply in_map. exact Hy.
  - intros x. rewrite in_map_iff. split.
    + intros ((y, k) & <- & H). apply filter_In in H as (H & Hk). cbn [fst snd] in *. apply (In_sget _ _ _ N) in H. rewrite Hd in H. destruct (mem y (fst G)) eqn:M; [|discriminate]. injection H as H. split; [apply mem_true; exact M|]. apply indeg_zero; [exact OK|]. lia.
    + intros (H & Hz). apply mem_true in H. apply indeg_zero in Hz; [|exact OK]. exists (x, 0). split; [reflexivity|]. apply filter_In. split; [|reflexivity]. apply sget_In. rewrite Hd, H, Hz. reflexivity.
Qed.

Lemma cnt_edge_keys l : forall d d', cnt_edge d l = Ret d' -> map fst d' = map fst d.
Proof.
  induction l as [|v l IH]; intros d d' E; cbn in E; [injection E as <-; reflexivity|]. destruct (sdget d v) as [k|] eqn:K; [|discriminate]. cbn [bind] in E. rewrite (IH _ _ E), sset_keys. apply sget_key in K. apply mem_true in K. rewrite K. reflexivity.
Qed.
Lemma count_keys g l : forall d d', forM l (count_body g) d = Ret d' -> map fst d' = map fst d.
Proof.
  induction l as [|u l IH]; intros d d' E; cbn [forM] in E; [injection E as <-; reflexivity|]. unfold count_body at 1 in E. destruct (al_neighbors g u) as [ns| |]; try discriminate. cbn [bind] in E. change (forM ns _ d) with (cnt_edge d ns) in E.
  destruct (cnt_edge d ns) as [d1| |] eqn:E1; try discriminate. cbn [bind] in E. rewrite (IH _ _ E). apply (cnt_edge_keys _ _ _ E1).
Qed.
Lemma fold_zero_keys (l : list string) : forall d : list (string * Z), NoDup (map fst d ++ l) -> map fst (fold_left (fun d v => sdset d v 0) l d) = map fst d ++ l.
Proof.
  induction l as [|x l IH]; intros d N; cbn [fold_left]; [rewrite app_nil_r; reflexivity|]. assert (X : ~ In x (map fst d)). { apply NoDup_remove_2 in N. intros X. apply N, in_app_iff. auto. }
  rewrite IH; rewrite (sset_new d x 0 X), map_app; cbn [map fst]; rewrite <- app_assoc; [reflexivity|exact N].
Qed.
Lemma filter_fst_ext (d : list (string * Z)) (f : string -> bool) : (forall x k, In (x, k) d -> (k =? 0) = f x) -> map fst (filter (fun e => snd e =? 0) d) = filter f (map fst d).
Proof.
  induction d as [|(x, k) d IH]; intros H; [reflexivity|]. cbn [filter map fst snd]. rewrite <- (H x k (or_introl eq_refl)). destruct (k =? 0); cbn [map fst]; rewrite IH; auto; intros y j Hy; apply H; right; exact Hy.
Qed.
Lemma arrow_ok G u v : arrow (dg_edges G) u v = true <-> is_edge G u v.
Proof.
  unfold arrow, is_edge. rewrite existsb_exists. split.
  - intros ((a, b) & H & E). cbn [fst snd] in E. apply andb_true_iff in E as (E1 & E2). apply String.eqb_eq in E1, E2. subst. exact H.
  - intros H. exists (u, v). split; [exact H|]. cbn [fst snd]. rewrite !String.eqb_refl. reflexivity.
Qed.
Lemma forallb_arrow G V x : forallb (fun u => negb (arrow (dg_edges G) u x)) V = true <-> forall u, In u V -> ~ is_edge G u x.
Proof.
  rewrite forallb_forall. split; intros H u Hu.
  - specialize (H u Hu). intros X. apply arrow_ok in X. rewrite X in H. discriminate.
  - destruct (arrow (dg_edges G) u x) eqn:A; [|reflexivity]. apply arrow_ok in A. exfalso. apply (H u Hu A).
Qed.
Lemma collect_exact g G : al_rep g G -> dg_ok G -> collect_source_nodes g = Ret (minimal (dg_edges G) (fst G)).
Proof.
  intros R OK. unfold collect_source_nodes. rewrite (rep_v _ _ R). change (bind (forM (fst G) (count_body g) (fold_left (fun d u => sdset d u 0) (fst G) [])) (fun d => Ret (map fst (filter (fun e => snd e =? 0) d))) = Ret (minimal (dg_edges G) (fst G))).
  destruct (proj1 (wp_ex _ _ _) (count_ok g G R OK)) as (d & E & Hd). rewrite E. cbn [bind]. f_equal.
  assert (K : map fst d = fst G). { rewrite (count_keys g _ _ _ E), fold_zero_keys; [reflexivity|cbn [map app]; apply (ok_v _ OK)]. }
  unfold minimal. transitivity (filter (fun x => forallb (fun u => negb (arrow (dg_edges G) u x)) (fst G)) (map fst d)); [|rewrite K; reflexivity]. apply filter_fst_ext. intros x k H. apply In_sget in H; [|rewrite K; apply (ok_v _ OK)]. rewrite Hd in H. destruct (mem x (fst G)); [|discriminate]. injection H as <-.
  apply eq_iff_eq_true. rewrite Z.eqb_eq, indeg_zero, forallb_arrow by exact OK. split; [auto|]. intros H u Hu. apply (H u); [|exact Hu]. apply (ok_in _ OK u x Hu).
Qed.

Lemma in_filt x s V : In x (filter (fun x => negb (existsb (String.eqb x) s)) V) <-> In x V /\ ~ In x s.
Proof.
  rewrite filter_In. assert (X : existsb (String.eqb x) s = true <-> In x s). { rewrite existsb_exists. split; [intros (y & Hy & E); apply String.eqb_eq in E; subst; exact Hy|intros H; exists x; split; [exact H|apply String.eqb_refl]]. }
  destruct (existsb (String.eqb x) s); cbn [negb]; intuition congruence.
Qed.

Section Jobs.
  Context (G : dg) (OK : dg_ok G) (S0 : list string) (HS : NoDup S0) (HI : incl S0 (fst G)).
  Definition jname (j : job) : string := match j with JNew u => u | JLoop u _ => u end.
  Definition owed (j : job) (v : string) : Prop := match j with JNew u => is_edge G u v | JLoop _ rest => In v rest end.
  Definition jsize (j : job) : nat := match j with JNew _ => 2 + length (fst G) | JLoop _ rest => 1 + length rest end.
  Definition jsum (jobs : list job) : nat := fold_right (fun j n => jsize j + n)%nat 0%nat jobs.
  Record jinv (g : al) (jobs : list job) (G1 : dg) : Prop := {
    j_rep : al_rep g G1; j_ok : dg_ok G1; j_v : fst G1 = fst G;
    j_nd : NoDup (map jname jobs); j_in : forall j, In j jobs -> In (jname j) S0;
    j_rest : forall u rest, In (JLoop u rest) jobs -> NoDup rest;
    j_e : forall u v, is_edge G1 u v <-> (is_edge G u v /\ ~ In u S0) \/ exists j, In j jobs /\ jname j = u /\ owed j v }.
  Lemma jsum_app a b : jsum (a ++ b) = (jsum a + jsum b)%nat.
  Proof. induction a as [|x a IH]; [reflexivity|]. cbn [app jsum fold_right]. fold (jsum a) (jsum (a ++ b)). lia. Qed.
  Lemma uniq jobs j j' : NoDup (map jname jobs) -> In j jobs -> In j' jobs -> jname j = jname j' -> j = j'.
  Proof.
    induction jobs as [|x jobs IH]; intros N Hj Hj' E; [destruct Hj|]. inversion N; subst. destruct Hj as [->|Hj], Hj' as [->|Hj']; auto.
    - exfalso. apply H1. rewrite E. apply in_map. exact Hj'.
    - exfalso. apply H1. rewrite <- E. apply in_map. exact Hj.
  Qed.
  Lemma step_inv g l1 j l2 G1 : jinv g (l1 ++ j :: l2) G1 -> exists G2, let '(g', j') := job_step g j in jinv g' (l1 ++ j' ++ l2) G2 /\ (jsum (l1 ++ j' ++ l2) < jsum (l1 ++ j :: l2))%nat.
  Proof.
    intros [R O V N I RS E]. assert (Hin : In j (l1 ++ j :: l2)) by apply in_elt. assert (HjS := I j Hin). assert (HjV : In (jname j) (fst G1)) by (rewrite V; apply HI, HjS).
    assert (OTH : forall i, In i (l1 ++ l2) -> In i (l1 ++ j :: l2)) by (intros i Hi; apply in_app_iff in Hi; apply in_app_iff; cbn; tauto).
    assert (NM : forall i, In i (l1 ++ l2) -> jname i <> jname j). { intros i Hi X. rewrite map_app in N. cbn [map] in N. apply NoDup_remove_2 in N. apply N. rewrite <- map_app, <- X. apply in_map, Hi. }
    assert (OWN : forall v, is_edge G1 (jname j) v <-> owed j v). { intros v. rewrite E. split; [|eauto]. intros [(_ & X)|(i & Hi & En & Ho)]; [contradiction|]. rewrite <- (uniq _ i j N Hi Hin En). exact Ho. }
    assert (ND2 : NoDup (map jname (l1 ++ l2))) by (rewrite map_app in *; cbn [map] in N; apply NoDup_remove_1 in N; exact N).
    assert (IR : forall j', jname j' = jname j -> (forall v, owed j' v <-> is_edge G1 (jname j) v) -> (match j' with JLoop _ r => NoDup r | _ => True end) -> jinv g (l1 ++ [j'] ++ l2) G1).
    { intros j' En Ho Hr. split; auto.
      - replace (map jname (l1 ++ [j'] ++ l2)) with (map jname (l1 ++ j :: l2)); [exact N|]. rewrite !map_app. cbn [map app]. rewrite En. reflexivity.
      - intros i Hi. apply in_app_iff in Hi as [Hi|[<-|Hi]]; [apply I, in_app_iff; auto|rewrite En; exact HjS|apply I, in_app_iff; cbn; auto].
      - intros u rest Hi. apply in_app_iff in Hi as [Hi|[->|Hi]]; [apply (RS u), in_app_iff; auto|exact Hr|apply (RS u), in_app_iff; cbn; auto].
      - intros u v. rewrite E. split; (intros [X|(i & Hi & Eni & Hoi)]; [auto|]); right.
        + apply in_app_iff in Hi as [Hi|[<-|Hi]]; [exists i; split; [apply in_app_iff; auto|auto]| |exists i; split; [apply in_app_iff; right; right; exact Hi|auto]]. exists j'. split; [apply in_elt|]. split; [congruence|]. apply Ho, OWN, Hoi.
        + apply in_app_iff in Hi as [Hi|[<-|Hi]]; [exists i; split; [apply in_app_iff; auto|auto]| |exists i; split; [apply in_app_iff; right; right; exact Hi|auto]]. exists j. split; [exact Hin|]. split; [congruence|]. apply OWN, Ho, Hoi. }
    destruct j as [u|u [|v rest]]; cbn [jname job_step] in *.
    - rewrite (rep_neighbors g G1 u R O HjV). exists G1. split.
      + apply IR; [reflexivity| |apply outs_nodup, (ok_e _ O)]. intros v. cbn [owed]. rewrite outs_In. reflexivity.
      + rewrite !jsum_app. cbn [jsum fold_right app jsize]. fold (jsum l2). assert (X : (length (outs (snd G1) u) <= length (fst G))%nat); [|lia]. apply NoDup_incl_length; [apply outs_nodup, (ok_e _ O)|]. intros y Hy. apply outs_In in Hy. rewrite <- V. apply (ok_in _ O u y Hy).
    - exists G1. split; [|rewrite !jsum_app; cbn [jsum fold_right app jsize]; fold (jsum l2); lia]. cbn [app]. split; auto.
      + intros u0 rest Hi. apply (RS u0), OTH, Hi.
      + intros a b. rewrite E. split; (intros [X|(i & Hi & Eni & Hoi)]; [auto|]); right.
        * apply in_app_iff in Hi as [Hi|[<-|Hi]]; [exists i; split; [apply in_app_iff; auto|auto]|destruct Hoi|exists i; split; [apply in_app_iff; auto|auto]].
        * exists i. split; [apply OTH, Hi|auto].
    - assert (Ee : is_edge G1 u v) by (apply OWN; left; reflexivity). destruct (ok_in _ O u v Ee) as (_ & Hv). assert (Ov : ordinary v) by (assert (Q := ok_ord _ O); rewrite Forall_forall in Q; auto). assert (Ou : ordinary u) by (assert (Q := ok_ord _ O); rewrite Forall_forall in Q; auto).
      destruct (step_remove_edge g G1 u v R O Ov HjV Hv Ee) as (g' & Eg & R' & _). rewrite Eg. exists (dg_step G1 (GRemE u v)). destruct G1 as (V1, E1). assert (Nr := RS u _ Hin). inversion Nr as [|? ? Nv Nr']; subst. split.
      + split; [exact R'|apply dg_step_ok; [exact O|constructor; [exact Ou|constructor; [exact Ov|constructor]]]|exact V| | | |].
        * replace (map jname (l1 ++ [JLoop u rest] ++ l2)) with (map jname (l1 ++ JLoop u (v :: rest) :: l2)); [exact N|]. rewrite !map_app. reflexivity.
        * intros i Hi. apply in_app_iff in Hi as [Hi|[<-|Hi]]; [apply I, in_app_iff; auto|exact HjS|apply I, in_app_iff; cbn; auto].
        * intros u0 rest0 Hi. apply in_app_iff in Hi as [Hi|[Hi|Hi]]; [apply (RS u0), in_app_iff; auto|injection Hi as <- <-; exact Nr'|apply (RS u0), in_app_iff; cbn; auto].
        * intros a b. rewrite is_edge_remE, E. split.
          -- intros (Nab & [X|(i & Hi & Eni & Hoi)]); [auto|]. right. apply in_app_iff in Hi as [Hi|[<-|Hi]]; [exists i; split; [apply in_app_iff; auto|auto]| |exists i; split; [apply in_app_iff; right; right; exact Hi|auto]]. cbn in Eni, Hoi. subst a. exists (JLoop u rest). split; [apply in_elt|]. split; [reflexivity|]. destruct Hoi as [<-|Hoi]; [exfalso; auto|exact Hoi].
          -- intros [(X1 & X2)|(i & Hi & Eni & Hoi)].
             ++ split; [|auto]. intros (-> & _). contradiction.
             ++ apply in_app_iff in Hi as [Hi|[<-|Hi]].
                ** split; [|right; exists i; split; [apply in_app_iff; auto|auto]]. intros (-> & _). apply (NM i); [apply in_app_iff; auto|exact Eni].
                ** cbn in Eni, Hoi. subst a. split; [|right; exists (JLoop u (v :: rest)); split; [exact Hin|split; [reflexivity|right; exact Hoi]]]. intros (_ & ->). contradiction.
                ** split; [|right; exists i; split; [apply in_app_iff; cbn; auto|auto]]. intros (-> & _). apply (NM i); [apply in_app_iff; auto|exact Eni].
      + rewrite !jsum_app. cbn [jsum fold_right app jsize length]. fold (jsum l2). lia.
  Qed.
  Lemma jobs_ok sched g : al_rep g G -> wp (run_jobs sched g S0) (fun g' => exists G1, al_rep g' G1 /\ dg_ok G1 /\ fst G1 = fst G /\ forall u v, is_edge G1 u v <-> is_edge G u v /\ ~ In u S0).
  Proof.
    intros R. unfold run_jobs. apply (wp_while _ _ (fun '(g, jobs, _) => exists G1, jinv g jobs G1) (fun '(_, jobs, _) => jsum jobs)).
    - intros ((g1 & jobs) & t) (G1 & J). destruct jobs as [|j0 jobs0] eqn:EJ.
      + cbn [wp]. exists G1. destruct J as [R1 O V N I RS E]. split; [exact R1|]. split; [exact O|]. split; [exact V|]. intros u v. rewrite E. split; [intros [X|(j & [] & _)]; exact X|auto].
      + rewrite <- EJ in *. assert (L : (sched t mod length jobs < length jobs)%nat) by (apply Nat.mod_upper_bound; rewrite EJ; discriminate). set (i := (sched t mod length jobs)%nat) in *. destruct (nth_error jobs i) as [j|] eqn:Ej; [|apply nth_error_None in Ej; lia].
        assert (SP : jobs = firstn i jobs ++ j :: skipn (S i) jobs). { clearbody i. clear - Ej. revert i Ej. induction jobs as [|x l IH]; intros [|i] E; cbn in *; try discriminate; [injection E as ->; reflexivity|]. f_equal. apply IH, E. }
        rewrite SP in J. destruct (step_inv g1 _ j _ G1 J) as (G2 & Q). destruct (job_step g1 j) as (g2 & j'). destruct Q as (J2 & M). cbn [wp]. split; [exists G2; exact J2|]. rewrite <- SP in M. exact M.
    - exists G. split; auto.
      + rewrite map_map. cbn [jname]. rewrite map_id. exact HS.
      + intros j Hj. apply in_map_iff in Hj as (u & <- & Hu). exact Hu.
      + intros u rest Hj. apply in_map_iff in Hj as (x & X & _). discriminate.
      + intros u v. split.
        * intros X. destruct (in_dec_s u S0) as [Hu|Hu]; [right; exists (JNew u); split; [apply in_map, Hu|auto]|auto].
        * intros [(X & _)|(j & Hj & En & Ho)]; [exact X|]. apply in_map_iff in Hj as (x & <- & _). cbn in En, Ho. subst x. exact Ho.
    - rewrite (rep_v _ _ R). assert (X : jsum (map JNew S0) = (length S0 * (2 + length (fst G)))%nat); [|lia]. clear. induction S0 as [|u l IH]; [reflexivity|]. cbn [map jsum fold_right length Nat.mul]. fold (jsum (map JNew l)). rewrite IH. reflexivity.
  Qed.
  Lemma remove_ok g G1 : al_rep g G1 -> dg_ok G1 -> fst G1 = fst G -> wp (forM S0 (fun node g => al_remove_vertex g node) g)
    (fun g' => exists G2, al_rep g' G2 /\ dg_ok G2 /\ fst G2 = filter (fun x => negb (existsb (String.eqb x) S0)) (fst G1) /\ forall u v, is_edge G2 u v <-> is_edge G1 u v /\ ~ In u S0 /\ ~ In v S0).
  Proof.
    intros R O V. apply (wp_forM _ _ S0 _ (fun pre g' => exists G2, al_rep g' G2 /\ dg_ok G2 /\ fst G2 = filter (fun x => negb (existsb (String.eqb x) pre)) (fst G1) /\ forall u v, is_edge G2 u v <-> is_edge G1 u v /\ ~ In u pre /\ ~ In v pre)).
    - intros pre n post g1 E (G2 & R2 & O2 & V2 & E2). assert (Hn : In n S0) by (rewrite E; apply in_elt). assert (Hn1 : In n (fst G1)) by (rewrite V; apply HI, Hn).
      assert (HnP : ~ In n pre). { rewrite E in HS. apply NoDup_remove_2 in HS. intros X. apply HS, in_app_iff. auto. }
      assert (Hn2 : In n (fst G2)) by (rewrite V2; apply in_filt; auto). assert (On : ordinary n) by (assert (Q := ok_ord _ O2); rewrite Forall_forall in Q; auto).
      destruct (step_remove_vertex g1 G2 n R2 O2 On Hn2) as (g' & -> & R' & _). cbn [wp]. exists (dg_step G2 (GRemV n)). split; [exact R'|]. split; [apply dg_step_ok; [exact O2|constructor; [exact On|constructor]]|]. destruct G2 as (V', E'). cbn [fst snd dg_step] in *. split.
      + rewrite V2. clear. induction (fst G1) as [|x l IH]; [reflexivity|]. cbn [filter]. rewrite existsb_app. cbn [existsb]. rewrite orb_false_r, (String.eqb_sym x n). destruct (existsb (String.eqb x) pre); cbn [negb orb filter]; [exact IH|]. destruct (String.eqb n x); cbn [negb]; [exact IH|]. f_equal. exact IH.
      + intros u v. rewrite !in_app_iff. cbn [In]. assert (X : is_edge (filter (fun x => negb (String.eqb n x)) V', filter (fun e => negb (String.eqb n (fst (fst e)) || String.eqb n (snd (fst e)))) E') u v <-> is_edge (V', E') u v /\ n <> u /\ n <> v).
        { unfold is_edge, dg_edges. cbn [snd]. rewrite !in_map_iff. split.
          - intros (e & Ee & H). apply filter_In in H as (H & F). rewrite Ee in F. cbn [fst snd] in F. split; [exists e; auto|]. destruct (SE n u), (SE n v); cbn in F; try discriminate. auto.
          - intros ((e & Ee & H) & N1 & N2). exists e. split; [exact Ee|]. apply filter_In. split; [exact H|]. rewrite Ee. cbn [fst snd]. destruct (SE n u), (SE n v); cbn; congruence. }
        rewrite X, E2. intuition congruence.
    - exists G1. split; [exact R|]. split; [exact O|]. split; [|intros u v; cbn; tauto]. clear. induction (fst G1) as [|x l IH]; [reflexivity|]. cbn. f_equal. exact IH.
  Qed.
End Jobs.

Lemma filt_nil (V : list string) : filter (fun x => negb (existsb (String.eqb x) [])) V = V.
Proof. induction V as [|x V IH]; [reflexivity|]. cbn. f_equal. exact IH. Qed.
Lemma peel_nil E n V : minimal E V = [] -> peel E n V = [].
Proof. intros H. induction n as [|n IH]; [reflexivity|]. cbn [peel]. rewrite H, filt_nil. exact IH. Qed.
Lemma filt_short (s V : list string) : s <> [] -> incl s V -> (length (filter (fun x => negb (existsb (String.eqb x) s)) V) < length V)%nat.
Proof.
  intros N I. destruct s as [|a s]; [congruence|]. assert (H : In a V) by (apply I; left; reflexivity). assert (X : existsb (String.eqb a) (a :: s) = true) by (cbn [existsb]; rewrite String.eqb_refl; reflexivity). revert H X. generalize (a :: s). clear. intros s.
  assert (LE : forall V : list string, (length (filter (fun x => negb (existsb (String.eqb x) s)) V) <= length V)%nat) by (intros V0; induction V0 as [|x V0 IH]; [reflexivity|]; cbn [filter length]; destruct (negb _); cbn [length]; lia).
  induction V as [|x V IH]; intros H X; [destruct H|]. cbn [filter length]. destruct H as [->|H]; [rewrite X; cbn [negb]; specialize (LE V); lia|]. specialize (IH H X). destruct (negb _); cbn [length]; lia.
Qed.
Lemma minimal_incl E V : incl (minimal E V) V.
Proof. intros x H. apply filter_In in H. tauto. Qed.
Lemma peel_fuel E : forall n m V, (length V <= n)%nat -> (length V <= m)%nat -> peel E n V = peel E m V.
Proof.
  induction n as [|n IH]; intros m V Hn Hm.
  - destruct V; [|cbn in Hn; lia]. symmetry. apply peel_nil. reflexivity.
  - destruct m as [|m]; [destruct V; [|cbn in Hm; lia]; apply peel_nil; reflexivity|]. cbn [peel]. destruct (minimal E V) as [|a s] eqn:M.
    + rewrite filt_nil, !(peel_nil _ _ _ M). reflexivity.
    + f_equal. assert (X := filt_short (a :: s) V ltac:(discriminate) ltac:(rewrite <- M; apply minimal_incl)). apply IH; lia.
Qed.
Lemma minimal_restrict G G' : dg_ok G' -> (forall u v, In u (fst G') -> In v (fst G') -> is_edge G' u v <-> is_edge G u v) -> minimal (dg_edges G') (fst G') = minimal (dg_edges G) (fst G').
Proof.
  intros O H. unfold minimal. apply filter_ext_in. intros x Hx. apply eq_iff_eq_true. rewrite !forallb_arrow. split; intros K u Hu X; apply (K u Hu); apply H; auto.
Qed.

Lemma kahn_par_ok g G sched : al_rep g G -> dg_ok G ->
  (acyclic G -> exists g', kahn_parallel sched g = Ret (peel (dg_edges G) (length (fst G)) (fst G), g') /\ linear_extension G (peel (dg_edges G) (length (fst G)) (fst G)) /\ al_rep g' ([], [])) /\ (~ acyclic G -> kahn_parallel sched g = Raise ValueError).
Proof.
  intros R O. unfold kahn_parallel. destruct (collect_ok g G R O) as (S0 & E0 & N0 & HS0). rewrite E0. cbn [bind]. rewrite (rep_v _ _ R).
  set (body := fun '(source_nodes, g, L, round) => _).
  assert (W : wp (while_loop (S (length (fst G))) body (S0, g, [], 0%nat)) (fun '(L, g') => L = peel (dg_edges G) (length (fst G)) (fst G) /\ NoDup L /\ incl L (fst G) /\ (forall l1 v l2, L = l1 ++ v :: l2 -> forall u, is_edge G u v -> In u l1) /\
    exists G', al_rep g' G' /\ dg_ok G' /\ (forall x, In x (fst G') <-> In x (fst G) /\ ~ In x L) /\ (forall u v, is_edge G' u v <-> is_edge G u v /\ ~ In u L /\ ~ In v L) /\ forall x, In x (fst G') -> exists u, is_edge G' u x)).
  { apply (wp_while _ _ (fun '(s, g', L, _) => NoDup L /\ incl L (fst G) /\ (forall l1 v l2, L = l1 ++ v :: l2 -> forall u, is_edge G u v -> In u l1) /\
      exists G', al_rep g' G' /\ dg_ok G' /\ (forall x, In x (fst G') <-> In x (fst G) /\ ~ In x L) /\ (forall u v, is_edge G' u v <-> is_edge G u v /\ ~ In u L /\ ~ In v L) /\ NoDup s /\ (forall x, In x s <-> In x (fst G') /\ forall u, ~ is_edge G' u x) /\ s = minimal (dg_edges G) (fst G') /\ forall n, (length (fst G') <= n)%nat -> L ++ peel (dg_edges G) n (fst G') = peel (dg_edges G) (length (fst G)) (fst G)) (fun '(_, _, L, _) => (length (fst G) - length L)%nat)).
    - intros (((s & g1) & L) & round) (NL & IL & OL & G' & R1 & O1 & V1 & E1 & Ns & Hs & Hm & HL). destruct s as [|s0 s1] eqn:Es.
      + cbn [body wp]. split; [rewrite <- (HL _ (le_n _)), (peel_nil _ _ _ (eq_sym Hm)), app_nil_r; reflexivity|]. split; [exact NL|]. split; [exact IL|]. split; [exact OL|]. exists G'. split; [exact R1|]. split; [exact O1|]. split; [exact V1|]. split; [exact E1|]. intros x Hx.
        destruct (existsb (fun u => if is_edge_dec G' u x then true else false) (fst G')) eqn:X.
        * apply existsb_exists in X as (u & _ & Hu). destruct (is_edge_dec G' u x); [eauto|discriminate].
        * exfalso. apply (proj2 (Hs x)). split; [exact Hx|]. intros u Hu. destruct (ok_in _ O1 u x Hu) as (Hu1 & _). assert (Y : existsb (fun u => if is_edge_dec G' u x then true else false) (fst G') = true); [|congruence]. apply existsb_exists. exists u. split; [exact Hu1|]. destruct (is_edge_dec G' u x); [reflexivity|contradiction].
      + rewrite <- Es in *. assert (NE : s <> []) by (rewrite Es; discriminate). assert (Is : incl s (fst G')) by (intros x Hx; apply Hs, Hx).
        assert (B : body (s, g1, L, round) = (g <- run_jobs (sched round) g1 s ;; g <- forM s (fun node g => al_remove_vertex g node) g ;; s' <- collect_source_nodes g ;; Ret (Next (s', g, L ++ s, S round)))) by (rewrite Es; reflexivity). rewrite B.
        apply wp_bind. eapply wp_mono; [apply (jobs_ok G' O1 s Ns Is (sched round) g1 R1)|]. intros g2 (G2 & R2 & O2 & V2 & E2). apply wp_bind. eapply wp_mono; [apply (remove_ok G' s Ns Is g2 G2 R2 O2 V2)|]. intros g3 (G3 & R3 & O3 & V3 & E3).
        destruct (collect_ok g3 G3 R3 O3) as (s3 & Ec3 & N3 & H3). assert (Ms3 := collect_exact g3 G3 R3 O3). rewrite Ec3 in *. injection Ms3 as Ms3. cbn [bind wp].
        assert (DJ : forall x, In x s -> ~ In x L) by (intros x Hx; apply V1, Is, Hx). assert (NLs : NoDup (L ++ s)). { clear - NL Ns DJ. induction L as [|a L IH]; [exact Ns|]. inversion NL; subst. cbn [app]. constructor; [|apply IH; [assumption|intros x Hx X; apply (DJ x Hx); right; exact X]]. intros X. apply in_app_iff in X as [X|X]; [contradiction|]. apply (DJ a X). left. reflexivity. }
        assert (ILs : incl (L ++ s) (fst G)) by (intros x Hx; apply in_app_iff in Hx as [Hx|Hx]; [apply IL, Hx|apply V1, Is, Hx]). split.
        * split; [exact NLs|]. split; [exact ILs|]. split.
          -- intros l1 v l2 E u Hu. assert (Hv : In v (L ++ s)) by (rewrite E; apply in_elt). apply in_app_iff in Hv as [Hv|Hv].
             ++ apply in_split in Hv as (a & b & Ea). rewrite Ea in E. rewrite <- app_assoc in E. cbn [app] in E. assert (l1 = a); [|subst l1; apply (OL a v b Ea u Hu)].
                assert (U : forall (p q p' q' : list string), p ++ v :: q = p' ++ v :: q' -> NoDup (p ++ v :: q) -> p = p'). { clear. induction p as [|x p IH]; intros q p' q' E N; destruct p' as [|x' p']; cbn [app] in *; auto; injection E as E1 E2; subst; inversion N; subst; [exfalso; apply H1; apply in_elt|exfalso; apply H1; apply in_elt|]. f_equal. apply (IH q p' q' E2 H2). }
                symmetry. apply (U _ _ _ _ E). rewrite Ea, <- app_assoc in NLs. exact NLs.
             ++ assert (HuL : In u L). { destruct (in_dec_s u L) as [X|X]; [exact X|]. exfalso. apply (proj2 (proj1 (Hs v) Hv) u). apply E1. split; [exact Hu|]. split; [exact X|]. apply DJ, Hv. }
                assert (HvL := DJ v Hv). clear - E HuL HvL. revert l1 E. induction L as [|a L IH]; intros l1 E; [destruct HuL|]. destruct l1 as [|b l1]; cbn [app] in E; injection E as E1 E2; [exfalso; apply HvL; left; exact E1|]. subst b. destruct HuL as [->|HuL]; [left; reflexivity|]. right. apply IH; auto. intros X. apply HvL. right. exact X.
          -- exists G3. split; [exact R3|]. split; [exact O3|]. assert (V3' : forall x, In x (fst G3) <-> In x (fst G) /\ ~ In x (L ++ s)) by (intros x; rewrite V3, in_filt, V2, V1, in_app_iff; tauto). assert (E3' : forall u v, is_edge G3 u v <-> is_edge G u v /\ ~ In u (L ++ s) /\ ~ In v (L ++ s)) by (intros u v; rewrite E3, E2, E1, !in_app_iff; tauto).
             split; [exact V3'|]. split; [exact E3'|]. split; [exact N3|]. split; [exact H3|]. split.
             ++ rewrite Ms3. apply minimal_restrict; [exact O3|]. intros u v Hu Hv. apply V3' in Hu, Hv. rewrite E3'. tauto.
             ++ intros n Hn. rewrite <- app_assoc. rewrite V3, V2 in Hn |- *. rewrite <- (HL (S (length (fst G'))) ltac:(lia)). cbn [peel]. rewrite <- Hm. do 2 f_equal. assert (X := filt_short s (fst G') NE Is). apply peel_fuel; lia.
        * assert (X := NoDup_incl_length NLs ILs). rewrite app_length in *. destruct s; [congruence|]. cbn [length] in *. lia.
    - split; [constructor|]. split; [intros x []|]. split; [intros [|? ?] ? ? E; discriminate|]. exists G. split; [exact R|]. split; [exact O|]. split; [intros x; cbn; tauto|]. split; [intros u v; cbn; tauto|]. split; [exact N0|]. split; [exact HS0|]. split; [assert (Q := collect_exact g G R O); rewrite E0 in Q; injection Q as Q; exact Q|]. intros n Hn. cbn [app]. apply peel_fuel; auto.
    - cbn [length]. lia. }
  apply wp_ex in W as ((L & g') & -> & HLP & NL & IL & OL & G' & R' & O' & V' & E' & P'). cbn [bind].
  assert (Full : len L = len (fst G) -> incl (fst G) L). { intros E. apply NoDup_length_incl; [exact NL|unfold len in E; lia|exact IL]. }
  assert (LE : incl (fst G) L -> linear_extension G L).
  { intros VL. split; [apply NoDup_Permutation; [exact NL|apply (ok_v _ O)|intros x; split; [apply IL|apply VL]]|]. intros u v Huv. destruct (ok_in _ O u v Huv) as (_ & Hv). apply VL in Hv. apply in_split in Hv as (l1 & l2 & E). assert (Hu := OL l1 v l2 E u Huv). apply in_split in Hu as (a & b & ->). exists a, b, l2. rewrite E, <- app_assoc. reflexivity. }
  assert (CY : ~ incl (fst G) L -> ~ acyclic G).
  { intros NI AC. assert (NE : fst G' <> []). { intros X. apply NI. intros x Hx. destruct (in_dec_s x L) as [Y|Y]; [exact Y|]. exfalso. assert (Z : In x (fst G')) by (apply V'; auto). rewrite X in Z. exact Z. }
    destruct (preds_cycle G (fst G') NE) as (v & n & Hw).
    - intros v Hv. destruct (P' v Hv) as (u & Hu). exists u. split; [apply (ok_in _ O' u v Hu)|apply E' in Hu; apply Hu].
    - apply (AC v n Hw). }
  split; intros AC; destruct (Z.eqb_spec (len L) (len (fst G))) as [E|E]; cbn [negb].
  - exists g'. rewrite <- HLP. split; [reflexivity|]. split; [apply LE, Full, E|]. assert (FV : fst G' = []). { destruct (fst G') as [|x l] eqn:EV; [reflexivity|]. exfalso. destruct (proj1 (V' x) (or_introl eq_refl)) as (A & B). apply B, (Full E), A. }
    destruct G' as (V2, E2). cbn [fst] in FV. subst V2. assert (E2 = []). { destruct E2 as [|e E2]; [reflexivity|]. exfalso. destruct (ok_in _ O' (fst (fst e)) (snd (fst e))) as (X & _); [left; destruct (fst e); reflexivity|exact X]. } subst E2. exact R'.
  - exfalso. apply CY; [|exact AC]. intros VL. apply E. assert (X := NoDup_incl_length NL IL). assert (Y := NoDup_incl_length (ok_v _ O) VL). unfold len. lia.
  - exfalso. apply AC. assert (Q := LE (Full E)). apply (linear_acyclic G L NL). apply Q.
  - reflexivity.
Qed.
