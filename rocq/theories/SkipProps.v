(** C14: SkipList against a bag of pairs, whatever the random bits. *)
From Verif Require Import Base SkipModel SkipSpec SkipProofs SkipProofs2 SkipProofs3 SkipProofs4 SkipProofs5.

(** every call returns what the bag says it should return, and no call raises anything but the KeyError of extract *)
Theorem C14_histories (D : Type) (ops : list (sop D)) : exists st, skip_run skip_new ops = Ret (st, snd (bag_run [] ops)).
Proof. destruct (run_related ops skip_new [] new_related) as (st & E & _). exists st. exact E. Qed.

(** the levels after every history: each is framed by -inf and inf, ascends, and is part of the one below it;
    the lowest holds exactly the pairs of the bag, and pairs with equal keys from the newest to the oldest *)
Theorem C14_levels (D : Type) (ops : list (sop D)) st outs : skip_run skip_new ops = Ret (st, outs) ->
  let levels := skip_levels st in let bag := fst (bag_run [] ops) in
  len levels = k_levels st /\
  Forall (fun lv => exists ks, map fst lv = NInf :: map Fin ks ++ [PInf] /\ ascending ks) levels /\
  (forall i up low, nth_error levels i = Some up -> nth_error levels (S i) = Some low -> sublist (map fst up) (map fst low)) /\
  exists rest sorted dh dt, levels = rest ++ [(NInf, dh) :: map (fun e => (Fin (fst e), snd e)) sorted ++ [(PInf, dt)]] /\
    Permutation sorted bag /\ forall k, filter (fun e => fst e =? k) sorted = filter (fun e => fst e =? k) bag.
Proof.
  intros E levels bag. destruct (run_related ops skip_new [] new_related) as (st' & E' & Ls & R & S). rewrite E in E'. injection E' as <- _. unfold levels. rewrite (levels_ok st Ls R). assert (RH := p_h _ _ R).
  assert (KS : forall L, In L Ls -> map fst (lvl_read (k_heap st) L) = NInf :: map Fin (map (kz (K (k_heap st))) (lm L)) ++ [PInf]). { intros L _. unfold lvl_read. cbn [map fst]. rewrite map_app, !map_map. reflexivity. }
  split; [rewrite (p_lev _ _ R); unfold len; rewrite map_length; reflexivity|]. split; [|split].
  - rewrite Forall_map, Forall_forall. intros L I. exists (map (kz (K (k_heap st))) (lm L)). split; [apply KS, I|]. apply (repH_lok _ _ _ RH I).
  - assert (LN := h_link _ _ RH). clear - KS LN. induction Ls as [|L Ls IH]; intros i up low H1 H2; [destruct i; discriminate|]. destruct LN as (A & B). destruct i as [|i]; cbn [map nth_error] in *; [|apply (IH (fun L I => KS L (or_intror I)) B i up low H1 H2)].
    injection H1 as <-. destruct Ls as [|L' Ls]; [discriminate|]. cbn [map] in H2. injection H2 as <-. rewrite !KS by (cbn; auto). apply sub_keep. apply sub_app; [|apply sub_refl]. apply sub_map. destruct A as (_ & _ & ds & SU & F). replace (map (kz (K (k_heap st))) (lm L)) with (map (kz (K (k_heap st))) ds); [apply sub_map, SU|].
    clear - F. induction F as [|m d l ds (_ & E) F IH]; [reflexivity|]. cbn [map]. rewrite IH. f_equal. unfold kz. rewrite E. reflexivity.
  - destruct (exists_last (p_ne _ _ R)) as (Up & L & ->). exists (map (lvl_read (k_heap st)) Up), (items (k_heap st) (Up ++ [L])), (DD (k_heap st) (lh L)), (DD (k_heap st) (lt L)). split; [|split; [apply sameb_perm, S|exact S]].
    rewrite map_app. cbn [map]. f_equal. unfold items, bot. rewrite last_last, map_map. reflexivity.
Qed.

(** in words of the API: search after a history *)
Theorem C14_search (D : Type) (ops : list (sop D)) k st outs : skip_run skip_new ops = Ret (st, outs) -> skip_search st k = Ret (existsb (fun e => fst e =? k) (fst (bag_run [] ops))).
Proof.
  intros E. destruct (run_related ops skip_new [] new_related) as (st' & E' & Ls & R & S). rewrite E in E'. injection E' as <- _. rewrite (search_ok st Ls k R). rewrite !exists_at, S. reflexivity.
Qed.

(** bits that raise two of the nodes, a duplicate key, extracting the newest of the duplicates, a missing key, and removing the upper levels *)
Definition C14_ops : list (sop Z) :=
  [SInsert 5 (Some 50) (fun i => (i <? 1)%nat); SInsert 2 (Some 20) (fun _ => true); SInsert 5 (Some 51) (fun i => (i <? 2)%nat); SInsert 9 None (fun _ => false);
   SSearch 5; SSize; SExtract 5; SSearch 5; SExtract 2; SExtract 7; SSearch 2; SExtract 5; SSearch 5; SSize; SExtract 9; SSearch 9; SExtract 9; SInsert 4 (Some 40) (fun _ => true); SExtract 4].
Example C14_case : match skip_run skip_new C14_ops with Ret (st, outs) => outs = snd (bag_run [] C14_ops) /\
  outs = [ODone; ODone; ODone; ODone; OFound true; OSize 4; ONode 5 (Some 51); OFound true; ONode 2 (Some 20); OKeyError; OFound false; ONode 5 (Some 50); OFound false; OSize 1; ONode 9 None; OFound false; OKeyError; ODone; ONode 4 (Some 40)] | _ => False end.
Proof. vm_compute. auto. Qed.
Example C14_levels_case : match skip_run skip_new (firstn 4 C14_ops) with Ret (st, _) => skip_levels st =
  [[(NInf, None); (Fin 2, None); (Fin 5, None); (PInf, None)]; [(NInf, None); (Fin 2, None); (Fin 5, None); (Fin 5, None); (PInf, None)];
   [(NInf, None); (Fin 2, Some 20); (Fin 5, Some 51); (Fin 5, Some 50); (Fin 9, None); (PInf, None)]] | _ => False end.
Proof. vm_compute. reflexivity. Qed.
Print Assumptions C14_histories. Print Assumptions C14_levels. Print Assumptions C14_search.
