(** Model of topological_sort_parallel with algorithm 'kahn' (pydatastructs/graphs/algorithms.py 1155-1187).
    The jobs of a round run concurrently: nobody waits for one before the next is submitted, and leaving the with statement waits for all of them.
    The model interleaves them call by call: neighbors and remove_edge are atomic, and after each of them [sched] chooses the job that goes on.
    (A pool of num_threads workers allows fewer interleavings.) An exception in a job is kept in the future and never looked at: the job just ends. *)
From Coq Require Import Strings.String.
From Verif Require Import Base DsfModel GraphModel.
Import List.

(** _collect_source_nodes (1158-1167) *)
Definition collect_source_nodes (g : al) : res (list string) :=
  in_degree <- forM (al_vertices g) (fun u d =>
    l <- al_neighbors g u ;;
    forM l (fun v d => match sdget d v with Some k => Ret (sdset d v (k + 1)) | None => Raise KeyError end) d)
    (fold_left (fun d u => sdset d u 0) (al_vertices g) []) ;;
  Ret (map fst (filter (fun e => snd e =? 0) in_degree)).
(** _job (1169-1171): not started, or in its loop with the neighbours that are left *)
Inductive job := JNew (u : string) | JLoop (u : string) (rest : list string).
Definition job_step (g : al) (j : job) : al * list job :=
  match j with
  | JNew u => match al_neighbors g u with Ret l => (g, [JLoop u l]) | _ => (g, []) end
  | JLoop u [] => (g, [])
  | JLoop u (v :: rest) => match al_remove_edge g u v with Ret g' => (g', [JLoop u rest]) | _ => (g, []) end
  end.
(** the body of the with statement (1176-1179), up to the end of the last job *)
Definition run_jobs (sched : nat -> nat) (g : al) (source_nodes : list string) : res al :=
  while_loop (S (length source_nodes * (2 + length (al_vertices g)))) (fun '(g, jobs, t) =>
    match jobs with
    | [] => Ret (Break g)
    | _ =>
      let i := (sched t mod length jobs)%nat in
      match nth_error jobs i with
      | Some j => let '(g, j') := job_step g j in Ret (Next (g, firstn i jobs ++ j' ++ skipn (S i) jobs, S t))
      | None => Ret (Break g)
      end
    end) (g, map JNew source_nodes, 0%nat).
(** _kahn_adjacency_list_parallel (1155-1187): the order, and the caller's graph afterwards *)
Definition kahn_parallel (sched : nat -> nat -> nat) (g : al) : res (list string * al) :=
  let num_vertices := len (al_vertices g) in
  source_nodes <- collect_source_nodes g ;;
  ' (L, g) <- while_loop (S (length (al_vertices g))) (fun '(source_nodes, g, L, round) =>
    match source_nodes with
    | [] => Ret (Break (L, g))
    | _ =>
      g <- run_jobs (sched round) g source_nodes ;;
      g <- forM source_nodes (fun node g => al_remove_vertex g node) g ;;
      s <- collect_source_nodes g ;;
      Ret (Next (s, g, L ++ source_nodes, S round))
    end) (source_nodes, g, [], 0%nat) ;;
  if negb (len L =? num_vertices) then Raise ValueError else Ret (L, g).
