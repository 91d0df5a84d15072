(** Proofs about endpoints: infrastructure. *)
From Verif Require Import Base BaseFacts BuilderFacts Codec Spec Ids IdsFacts Payload Builder Emit EmitFacts Ipc SpecIpc.
From Coq Require Import ZifyBool ZifyNat ZifyN.

(** ** Projections of state changes *)
Section Proj.
  Context (s : ep).
  Ltac go := intros; unfold set_task, add_task, set_loop, set_conn, set_chan, close_chan, set_stream, add_stream, next_id, listen, unlisten;
             repeat match goal with |- context[match ?x with _ => _ end] => destruct x end; reflexivity.
  Lemma lis_set_task i st : e_lis (set_task i st s) = e_lis s. Proof. go. Qed.
  Lemma chans_set_task i st : e_chans (set_task i st s) = e_chans s. Proof. go. Qed.
  Lemma streams_set_task i st : e_streams (set_task i st s) = e_streams s. Proof. go. Qed.
  Lemma conns_set_task i st : e_conns (set_task i st s) = e_conns s. Proof. go. Qed.
  Lemma ctr_set_task i st : e_ctr (set_task i st s) = e_ctr s. Proof. go. Qed.
  Lemma lis_add_task i : e_lis (add_task i s) = e_lis s. Proof. go. Qed.
  Lemma chans_add_task i : e_chans (add_task i s) = e_chans s. Proof. go. Qed.
  Lemma streams_add_task i : e_streams (add_task i s) = e_streams s. Proof. go. Qed.
  Lemma conns_add_task i : e_conns (add_task i s) = e_conns s. Proof. go. Qed.
  Lemma ctr_add_task i : e_ctr (add_task i s) = e_ctr s. Proof. go. Qed.
  Lemma tasks_add_task i : e_tasks (add_task i s) = e_tasks s ++ [i]. Proof. go. Qed.
  Lemma lis_set_loop n l : e_lis (set_loop n l s) = e_lis s. Proof. go. Qed.
  Lemma chans_set_loop n l : e_chans (set_loop n l s) = e_chans s. Proof. go. Qed.
  Lemma streams_set_loop n l : e_streams (set_loop n l s) = e_streams s. Proof. go. Qed.
  Lemma tasks_set_loop n l : e_tasks (set_loop n l s) = e_tasks s. Proof. go. Qed.
  Lemma ctr_set_loop n l : e_ctr (set_loop n l s) = e_ctr s. Proof. go. Qed.
  Lemma lis_set_conn n l : e_lis (set_conn n l s) = e_lis s. Proof. go. Qed.
  Lemma chans_set_conn n l : e_chans (set_conn n l s) = e_chans s. Proof. go. Qed.
  Lemma streams_set_conn n l : e_streams (set_conn n l s) = e_streams s. Proof. go. Qed.
  Lemma tasks_set_conn n l : e_tasks (set_conn n l s) = e_tasks s. Proof. go. Qed.
  Lemma ctr_set_conn n l : e_ctr (set_conn n l s) = e_ctr s. Proof. go. Qed.
  Lemma conns_set_conn n l : e_conns (set_conn n l s) = put n l (e_conns s). Proof. go. Qed.
  Lemma lis_set_chan c x : e_lis (set_chan c x s) = e_lis s. Proof. go. Qed.
  Lemma chans_set_chan c x : e_chans (set_chan c x s) = put c x (e_chans s). Proof. go. Qed.
  Lemma streams_set_chan c x : e_streams (set_chan c x s) = e_streams s. Proof. go. Qed.
  Lemma conns_set_chan c x : e_conns (set_chan c x s) = e_conns s. Proof. go. Qed.
  Lemma tasks_set_chan c x : e_tasks (set_chan c x s) = e_tasks s. Proof. go. Qed.
  Lemma ctr_set_chan c x : e_ctr (set_chan c x s) = e_ctr s. Proof. go. Qed.
  Lemma lis_close_chan c : e_lis (close_chan c s) = e_lis s. Proof. go. Qed.
  Lemma streams_close_chan c : e_streams (close_chan c s) = e_streams s. Proof. go. Qed.
  Lemma conns_close_chan c : e_conns (close_chan c s) = e_conns s. Proof. go. Qed.
  Lemma tasks_close_chan c : e_tasks (close_chan c s) = e_tasks s. Proof. go. Qed.
  Lemma ctr_close_chan c : e_ctr (close_chan c s) = e_ctr s. Proof. go. Qed.
  Lemma lis_set_stream h x : e_lis (set_stream h x s) = e_lis s. Proof. go. Qed.
  Lemma chans_set_stream h x : e_chans (set_stream h x s) = e_chans s. Proof. go. Qed.
  Lemma conns_set_stream h x : e_conns (set_stream h x s) = e_conns s. Proof. go. Qed.
  Lemma tasks_set_stream h x : e_tasks (set_stream h x s) = e_tasks s. Proof. go. Qed.
  Lemma ctr_set_stream h x : e_ctr (set_stream h x s) = e_ctr s. Proof. go. Qed.
  Lemma lis_add_stream x : e_lis (add_stream x s) = e_lis s. Proof. go. Qed.
  Lemma chans_add_stream x : e_chans (add_stream x s) = e_chans s. Proof. go. Qed.
  Lemma streams_add_stream x : e_streams (add_stream x s) = e_streams s ++ [x]. Proof. go. Qed.
  Lemma conns_add_stream x : e_conns (add_stream x s) = e_conns s. Proof. go. Qed.
  Lemma tasks_add_stream x : e_tasks (add_stream x s) = e_tasks s. Proof. go. Qed.
  Lemma ctr_add_stream x : e_ctr (add_stream x s) = e_ctr s. Proof. go. Qed.
  Lemma lis_next_id : e_lis (next_id s) = e_lis s. Proof. go. Qed.
  Lemma chans_next_id : e_chans (next_id s) = e_chans s. Proof. go. Qed.
  Lemma streams_next_id : e_streams (next_id s) = e_streams s. Proof. go. Qed.
  Lemma conns_next_id : e_conns (next_id s) = e_conns s. Proof. go. Qed.
  Lemma tasks_next_id : e_tasks (next_id s) = e_tasks s. Proof. go. Qed.
  Lemma ctr_next_id : e_ctr (next_id s) = e_ctr s + 1. Proof. go. Qed.
  Lemma lis_listen id : e_lis (listen id s) = insert N.eqb id (length (e_chans s)) (e_lis s). Proof. go. Qed.
  Lemma chans_listen id : e_chans (listen id s) = e_chans s ++ [mk_chan id [] true]. Proof. go. Qed.
  Lemma streams_listen id : e_streams (listen id s) = e_streams s. Proof. go. Qed.
  Lemma conns_listen id : e_conns (listen id s) = e_conns s. Proof. go. Qed.
  Lemma tasks_listen id : e_tasks (listen id s) = e_tasks s. Proof. go. Qed.
  Lemma ctr_listen id : e_ctr (listen id s) = e_ctr s. Proof. go. Qed.
  Lemma lis_unlisten id : e_lis (unlisten id s) = remove N.eqb id (e_lis s). Proof. go. Qed.
  Lemma chans_unlisten id : e_chans (unlisten id s) = e_chans s. Proof. go. Qed.
  Lemma streams_unlisten id : e_streams (unlisten id s) = e_streams s. Proof. go. Qed.
  Lemma conns_unlisten id : e_conns (unlisten id s) = e_conns s. Proof. go. Qed.
  Lemma tasks_unlisten id : e_tasks (unlisten id s) = e_tasks s. Proof. go. Qed.
  Lemma ctr_unlisten id : e_ctr (unlisten id s) = e_ctr s. Proof. go. Qed.
End Proj.
Global Hint Rewrite lis_set_task chans_set_task streams_set_task conns_set_task ctr_set_task
  lis_add_task chans_add_task streams_add_task conns_add_task ctr_add_task tasks_add_task
  lis_set_loop chans_set_loop streams_set_loop tasks_set_loop ctr_set_loop
  lis_set_conn chans_set_conn streams_set_conn tasks_set_conn ctr_set_conn conns_set_conn
  lis_set_chan chans_set_chan streams_set_chan conns_set_chan tasks_set_chan ctr_set_chan
  lis_close_chan streams_close_chan conns_close_chan tasks_close_chan ctr_close_chan
  lis_set_stream chans_set_stream conns_set_stream tasks_set_stream ctr_set_stream
  lis_add_stream chans_add_stream streams_add_stream conns_add_stream tasks_add_stream ctr_add_stream
  lis_next_id chans_next_id streams_next_id conns_next_id tasks_next_id ctr_next_id
  lis_listen chans_listen streams_listen conns_listen tasks_listen ctr_listen
  lis_unlisten chans_unlisten streams_unlisten conns_unlisten tasks_unlisten ctr_unlisten : ep.

(** ** Runs *)
Lemma run_app cf ls1 : forall s ls2, run cf s (ls1 ++ ls2) =
  match run cf s ls1 with
  | Some (s1, o1) => match run cf s1 ls2 with Some (s2, o2) => Some (s2, o1 ++ o2) | None => None end
  | None => None
  end.
Proof.
  induction ls1 as [|l ls1 IH]; intros s ls2; cbn [run app].
  - destruct (run cf s ls2) as [[s2 o2]|]; reflexivity.
  - destruct (step cf s l) as [[s1 o1]|]; [|reflexivity]. rewrite IH. destruct (run cf s1 ls1) as [[s2 o2]|]; [|reflexivity].
    destruct (run cf s2 ls2) as [[s3 o3]|]; [|reflexivity]. rewrite app_assoc. reflexivity.
Qed.
(** invariants of runs; [ls] is the history of labels *)
Lemma run_ind cf s0 (P : list label -> ep -> list obs -> Prop) : P [] s0 [] ->
  (forall ls s tr l s' os, P ls s tr -> run cf s0 ls = Some (s, tr) -> step cf s l = Some (s', os) -> P (ls ++ [l]) s' (tr ++ os)) ->
  forall ls s tr, run cf s0 ls = Some (s, tr) -> P ls s tr.
Proof.
  intros H0 HS ls. induction ls as [|l ls IH] using rev_ind; intros s tr H.
  - cbn in H. inversion H; subst. exact H0.
  - pose proof H as HR. rewrite run_app in H. destruct (run cf s0 ls) as [[s1 o1]|] eqn:E1; [|discriminate].
    cbn [run] in H. destruct (step cf s1 l) as [[s2 o2]|] eqn:E2; [|discriminate]. rewrite app_nil_r in H. inversion H; subst.
    eapply HS; eauto.
Qed.
Lemma run_snoc cf s0 ls l s tr : run cf s0 (ls ++ [l]) = Some (s, tr) ->
  exists s1 o1 o2, run cf s0 ls = Some (s1, o1) /\ step cf s1 l = Some (s, o2) /\ tr = o1 ++ o2.
Proof.
  rewrite run_app. destruct (run cf s0 ls) as [[s1 o1]|]; [|discriminate]. cbn [run].
  destruct (step cf s1 l) as [[s2 o2]|] eqn:E; [|discriminate]. rewrite app_nil_r. intros H. inversion H; subst. exists s1, o1, o2. auto.
Qed.

(** case analysis over all steps *)
Lemma some_pair {A B} (a a' : A) (b b' : B) : Some (a, b) = Some (a', b') -> a = a' /\ b = b'.
Proof. intros H. inversion H. auto. Qed.
Ltac step_cases H :=
  unfold step, task_step, run_prog, receive, place, handle_event, answer_event in H; cbn zeta in H;
  repeat (match type of H with context[match ?x with _ => _ end] => destruct x eqn:? end; try discriminate H);
  apply some_pair in H; destruct H as [<- <-].

(** ** Listener table = trace *)
Lemma registered_app tr os id : registered (tr ++ os) id = fold_left (note_listener id) os (registered tr id).
Proof. unfold registered. apply fold_left_app. Qed.
Lemma inv_lis cf n armed ps ctr ls s tr : runs cf n armed ps ctr ls s tr -> forall rid, lookup N.eqb rid (e_lis s) = registered tr rid.
Proof.
  apply (run_ind cf _ (fun ls s tr => forall rid, lookup N.eqb rid (e_lis s) = registered tr rid)); [reflexivity|].
  clear. intros ls s tr l s' os IH _ H rid. rewrite registered_app, <- IH. clear IH.
  step_cases H; autorewrite with ep; cbn [fold_left note_listener]; try reflexivity;
  match goal with |- context[N.eqb ?a rid] => destruct (N.eqb_spec a rid) as [->|?] end;
    rewrite ?lookup_Neqb_insert_eq, ?lookup_Neqb_remove_eq, ?lookup_Neqb_insert_ne, ?lookup_Neqb_remove_ne by congruence; reflexivity.
Qed.

(** ** nth_error of the changed lists *)
Lemma nth_put {A} i (x : A) l j : nth_error (put i x l) j = if Nat.eqb j i then match nth_error l i with Some _ => Some x | None => None end else nth_error l j.
Proof.
  destruct (Nat.eqb_spec j i) as [->|N].
  - destruct (nth_error l i) eqn:E; [eapply put_eq; eauto|]. apply nth_error_None in E. apply nth_error_None. rewrite put_length. exact E.
  - apply put_ne. congruence.
Qed.
Lemma nth_snoc {A} (x : A) l j : nth_error (l ++ [x]) j = if Nat.eqb j (length l) then Some x else nth_error l j.
Proof.
  destruct (Nat.eqb_spec j (length l)) as [->|N].
  - rewrite nth_error_app2, Nat.sub_diag by lia. reflexivity.
  - destruct (Nat.lt_ge_cases j (length l)); [apply nth_error_app1; assumption|].
    rewrite nth_error_app2 by lia. replace (nth_error l j) with (@None A) by (symmetry; apply nth_error_None; lia).
    destruct (j - length l)%nat as [|k] eqn:E; [lia|]. destruct k; reflexivity.
Qed.
Lemma nth_set_task i st s j : nth_error (e_tasks (set_task i st s)) j =
  if Nat.eqb j i then option_map (fun tk => mk_task (tk_job tk) st) (nth_error (e_tasks s) i) else nth_error (e_tasks s) j.
Proof.
  unfold set_task. destruct (nth_error (e_tasks s) i) as [tk|] eqn:E; cbn [e_tasks option_map].
  - rewrite nth_put, E. reflexivity.
  - destruct (Nat.eqb_spec j i) as [->|N]; auto.
Qed.
Lemma nth_set_loop n l s m : nth_error (e_conns (set_loop n l s)) m =
  if Nat.eqb m n then option_map (fun c => mk_conn l (cn_armed c) (cn_signal c)) (nth_error (e_conns s) n) else nth_error (e_conns s) m.
Proof.
  unfold set_loop. destruct (nth_error (e_conns s) n) as [tk|] eqn:E; cbn [e_conns set_conn option_map].
  - rewrite nth_put, E. reflexivity.
  - destruct (Nat.eqb_spec m n) as [->|N]; auto.
Qed.
Lemma nth_close_chan c s d : nth_error (e_chans (close_chan c s)) d =
  if Nat.eqb d c then option_map (fun ch => mk_chan (ch_id ch) [] false) (nth_error (e_chans s) c) else nth_error (e_chans s) d.
Proof.
  unfold close_chan. destruct (nth_error (e_chans s) c) as [tk|] eqn:E; cbn [e_chans set_chan option_map].
  - rewrite nth_put, E. reflexivity.
  - destruct (Nat.eqb_spec d c) as [->|N]; auto.
Qed.
Lemma nth_set_stream h st s d : nth_error (e_streams (set_stream h st s)) d =
  if Nat.eqb d h then option_map (fun x => mk_rstream (st_id x) (st_chan x) st) (nth_error (e_streams s) h) else nth_error (e_streams s) d.
Proof.
  unfold set_stream. destruct (nth_error (e_streams s) h) as [tk|] eqn:E; cbn [e_streams option_map].
  - rewrite nth_put, E. reflexivity.
  - destruct (Nat.eqb_spec d h) as [->|N]; auto.
Qed.
Lemma len_set_task i st s : length (e_tasks (set_task i st s)) = length (e_tasks s).
Proof. unfold set_task. destruct (nth_error (e_tasks s) i); [apply put_length|reflexivity]. Qed.
Lemma len_close_chan c s : length (e_chans (close_chan c s)) = length (e_chans s).
Proof. unfold close_chan. destruct (nth_error (e_chans s) c); [apply put_length|reflexivity]. Qed.
Lemma len_set_stream h st s : length (e_streams (set_stream h st s)) = length (e_streams s).
Proof. unfold set_stream. destruct (nth_error (e_streams s) h); [apply put_length|reflexivity]. Qed.
Lemma len_set_loop n l s : length (e_conns (set_loop n l s)) = length (e_conns s).
Proof. unfold set_loop. destruct (nth_error (e_conns s) n); [apply put_length|reflexivity]. Qed.
Global Hint Rewrite @nth_put @nth_snoc nth_set_task nth_set_loop nth_close_chan nth_set_stream
  len_set_task len_close_chan len_set_stream len_set_loop @put_length : ep.

(** ** What a step does to connection [n] *)
(** [n]'s loop reads, hands on, ends; everything else leaves it alone *)
Inductive loop_view (cf : config) (s : ep) (n : nat) (s' : ep) (os : list obs) : label -> Prop :=
| lv_other l : existsb (about n) os = false -> option_map cn_loop (nth_error (e_conns s') n) = option_map cn_loop (nth_error (e_conns s) n) ->
    loop_view cf s n s' os l
| lv_reply e c : option_map cn_loop (nth_error (e_conns s) n) = Some LRun -> os = [OReceived n e] ->
    match ev_ref e with Some r => lookup N.eqb r (e_lis s) | None => None end = Some c ->
    option_map cn_loop (nth_error (e_conns s') n) = Some (LSend c e) -> loop_view cf s n s' os (LRecv n e)
| lv_ignore e : option_map cn_loop (nth_error (e_conns s) n) = Some LRun -> os = [OReceived n e; OIgnored n e] ->
    match ev_ref e with Some r => lookup N.eqb r (e_lis s) | None => None end = None -> ev_type e = End ->
    option_map cn_loop (nth_error (e_conns s') n) = Some LRun -> loop_view cf s n s' os (LRecv n e)
| lv_call e : option_map cn_loop (nth_error (e_conns s) n) = Some LRun ->
    os = [OReceived n e; OCalled n (length (e_tasks s)) (mk_context n (Some (ev_id e))) (scope_of cf e) e] ->
    match ev_ref e with Some r => lookup N.eqb r (e_lis s) | None => None end = None -> ev_type e <> End ->
    option_map cn_loop (nth_error (e_conns s') n) = Some LRun -> loop_view cf s n s' os (LRecv n e)
| lv_queue c e ch : option_map cn_loop (nth_error (e_conns s) n) = Some (LSend c e) -> os = [OQueued n c e] ->
    nth_error (e_chans s) c = Some ch -> ch_open ch = true -> (length (ch_buf ch) < 8)%nat ->
    option_map cn_loop (nth_error (e_conns s') n) = Some LRun -> loop_view cf s n s' os (LPlace n)
| lv_stale c e ch : option_map cn_loop (nth_error (e_conns s) n) = Some (LSend c e) ->
    os = [OCalled n (length (e_tasks s)) (mk_context n (Some (ev_id e))) None e] ->
    nth_error (e_chans s) c = Some ch -> ch_open ch = false ->
    option_map cn_loop (nth_error (e_conns s') n) = Some LRun -> loop_view cf s n s' os (LPlace n)
| lv_closed : option_map cn_loop (nth_error (e_conns s) n) = Some LRun -> os = [OClosed n] ->
    option_map cn_loop (nth_error (e_conns s') n) = Some LDone -> loop_view cf s n s' os (LClosed n)
| lv_abort cn : nth_error (e_conns s) n = Some cn -> cn_signal cn = true -> os = [OAborted n] ->
    option_map cn_loop (nth_error (e_conns s') n) = Some LDone -> loop_view cf s n s' os (LAbort n).

Lemma etype_End t : etype_eqb t End = true <-> t = End.
Proof. destruct t; cbn; split; congruence. Qed.
Lemma lookup_existsb {V} ns (m : amap bytes V) : existsb (fun kv => bytes_eqb ns (fst kv)) m = match lookup bytes_eqb ns m with Some _ => true | None => false end.
Proof. induction m as [|[k v] m IH]; cbn; [reflexivity|]. destruct (bytes_eqb ns k); cbn; auto. Qed.

Lemma step_loop cf s l s' os n : step cf s l = Some (s', os) -> loop_view cf s n s' os l.
Proof.
  intros H. destruct l as [i a|m e|m|m|m|h|].
  - apply lv_other; step_cases H; autorewrite with ep; try reflexivity;
      repeat match goal with |- context[Nat.eqb ?a ?b] => destruct (Nat.eqb_spec a b); [subst|] end;
      repeat match goal with H : nth_error _ _ = _ |- _ => rewrite H end; reflexivity.
  - destruct (Nat.eq_dec m n) as [->|N].
    + cbn [step] in H. destruct (nth_error (e_conns s) n) as [cn|] eqn:Ec; [|discriminate]. destruct (cn_loop cn) eqn:El; try discriminate.
      assert (E0 : option_map cn_loop (nth_error (e_conns s) n) = Some LRun) by (rewrite Ec; cbn; congruence).
      inversion H; subst; clear H. unfold receive in *.
      destruct (match ev_ref e with Some r => lookup N.eqb r (e_lis s) | None => None end) as [c|] eqn:E1.
      * eapply lv_reply; eauto; inversion H1; subst; auto. rewrite nth_set_loop, Nat.eqb_refl, Ec. reflexivity.
      * destruct (etype_eqb (ev_type e) End) eqn:E2.
        -- apply lv_ignore; auto; inversion H1; subst; auto. apply etype_End. exact E2.
        -- assert (ev_type e <> End) by (rewrite <- etype_End; congruence).
           apply lv_call; auto.
           ++ unfold scope_of. destruct (ev_ns e) as [ns|] eqn:En; [rewrite lookup_existsb; destruct (lookup bytes_eqb ns (cf_namespaces cf))|];
                inversion H1; subst; reflexivity.
           ++ destruct (match ev_ns e with Some ns => lookup bytes_eqb ns (cf_namespaces cf) | None => None end); inversion H1; subst; exact E0.
    + apply lv_other; step_cases H; autorewrite with ep; cbn [existsb about]; rewrite ?(proj2 (Nat.eqb_neq m n) N); try reflexivity.
      destruct (Nat.eqb_spec n m); [congruence|reflexivity].
  - destruct (Nat.eq_dec m n) as [->|N].
    + cbn [step] in H. destruct (nth_error (e_conns s) n) as [cn|] eqn:Ec; [|discriminate]. destruct (cn_loop cn) eqn:El; try discriminate.
      assert (E0 : option_map cn_loop (nth_error (e_conns s) n) = Some (LSend c e)) by (rewrite Ec; cbn; congruence).
      unfold place in H. destruct (nth_error (e_chans s) c) as [ch|] eqn:E1; [|discriminate].
      destruct (ch_open ch) eqn:E2.
      * destruct (Nat.ltb_spec (length (ch_buf ch)) 8); [|discriminate]. inversion H; subst.
        eapply lv_queue; eauto. rewrite nth_set_loop, Nat.eqb_refl. autorewrite with ep. rewrite Ec. reflexivity.
      * unfold handle_event in H. rewrite tasks_set_loop in H. inversion H; subst.
        eapply lv_stale; eauto. autorewrite with ep. rewrite Nat.eqb_refl, Ec. reflexivity.
    + apply lv_other; step_cases H; autorewrite with ep; cbn [existsb about]; rewrite ?(proj2 (Nat.eqb_neq m n) N); try reflexivity;
      destruct (Nat.eqb_spec n m); (congruence || reflexivity).
  - destruct (Nat.eq_dec m n) as [->|N].
    + cbn [step] in H. destruct (nth_error (e_conns s) n) as [cn|] eqn:Ec; [|discriminate]. destruct (cn_loop cn) eqn:El; try discriminate.
      inversion H; subst. apply lv_closed; auto; [rewrite Ec; cbn; congruence|]. rewrite nth_set_loop, Nat.eqb_refl, Ec. reflexivity.
    + apply lv_other; step_cases H; autorewrite with ep; cbn [existsb about]; rewrite ?(proj2 (Nat.eqb_neq m n) N); try reflexivity.
      destruct (Nat.eqb_spec n m); [congruence|reflexivity].
  - destruct (Nat.eq_dec m n) as [->|N].
    + cbn [step] in H. destruct (nth_error (e_conns s) n) as [cn|] eqn:Ec; [|discriminate]. destruct (cn_signal cn) eqn:El; try discriminate.
      inversion H; subst. eapply lv_abort; eauto. autorewrite with ep. rewrite Nat.eqb_refl, Ec. reflexivity.
    + apply lv_other; step_cases H; autorewrite with ep; cbn [existsb about]; rewrite ?(proj2 (Nat.eqb_neq m n) N); try reflexivity.
      destruct (Nat.eqb_spec n m); [congruence|reflexivity].
  - apply lv_other; step_cases H; autorewrite with ep; reflexivity.
  - apply lv_other; step_cases H; autorewrite with ep; reflexivity.
Qed.

(** ** What a step does to task [i] *)
Definition by_task (i : nat) (o : obs) : bool :=
  match o with
  | OCalled _ j _ _ _ | OListen j _ _ | OSent j _ _ | OCut j _ _ | OReturned j _ | OPanicked j | OReply j _ _ | OOpened j _ _ _ | OItem j _ _ | OStop j _ _ => Nat.eqb j i
  | _ => false
  end.
Inductive task_view (cf : config) (s : ep) (i : nat) (s' : ep) (os : list obs) : label -> Prop :=
| tv_other l : existsb (by_task i) os = false -> nth_error (e_tasks s') i = nth_error (e_tasks s) i -> task_view cf s i s' os l
| tv_step a tk st : nth_error (e_tasks s) i = Some tk -> task_step cf s i a = Some (s', os) ->
    nth_error (e_tasks s') i = Some (mk_task (tk_job tk) st) -> task_view cf s i s' os (LTask i a)
| tv_spawn l q : i = length (e_tasks s) -> os = [] -> nth_error (e_tasks s') i = Some (mk_task None (TRun q)) -> task_view cf s i s' os l
| tv_called l n sc e : i = length (e_tasks s) ->
    (os = [OReceived n e; OCalled n i (mk_context n (Some (ev_id e))) sc e] \/ os = [OCalled n i (mk_context n (Some (ev_id e))) sc e]) ->
    nth_error (e_tasks s') i = Some (mk_task (Some (mk_context n (Some (ev_id e)), e))
       (TRun (match eh_get (callbacks cf sc) (ev_name e) with Some cb => cb (mk_context n (Some (ev_id e))) e | None => PRet (inl []) end))) ->
    task_view cf s i s' os l.
Lemma task_step_self cf s i a s' os : task_step cf s i a = Some (s', os) ->
  exists tk st, nth_error (e_tasks s) i = Some tk /\ nth_error (e_tasks s') i = Some (mk_task (tk_job tk) st).
Proof.
  intros H. unfold task_step in H. destruct (nth_error (e_tasks s) i) as [tk|] eqn:E; [|discriminate]. exists tk.
  assert (L : (i <> length (e_tasks s))%nat) by (pose proof (proj1 (nth_error_Some (e_tasks s) i)); rewrite E in *; intuition (try congruence; try lia)).
  enough (exists st, nth_error (e_tasks s') i = Some (mk_task (tk_job tk) st)) by firstorder.
  unfold run_prog, answer_event in H; cbn zeta in H;
  repeat (match type of H with context[match ?x with _ => _ end] => destruct x eqn:? end; try discriminate H);
  inversion H; subst; clear H; autorewrite with ep; rewrite Nat.eqb_refl, ?(proj2 (Nat.eqb_neq _ _) L), ?E; cbn [option_map]; eexists;
  try match goal with H : tk_job tk = _ |- _ => rewrite H end; reflexivity.
Qed.
Lemma step_task cf s l s' os i : step cf s l = Some (s', os) -> task_view cf s i s' os l.
Proof.
  intros H. destruct l as [j a|m e|m|m|m|h|].
  - destruct (Nat.eq_dec j i) as [->|N].
    + cbn [step] in H. destruct (task_step_self _ _ _ _ _ _ H) as (tk & st & A & B). eapply tv_step; eauto.
    + destruct (Nat.eq_dec i (length (e_tasks s))) as [Ei|Ei].
      * assert (Hn : nth_error (e_tasks s) i = None) by (apply nth_error_None; lia).
        step_cases H; try (apply tv_other; autorewrite with ep;
          [cbn [existsb by_task]; rewrite ?(proj2 (Nat.eqb_neq j i) N); reflexivity
          |destruct (Nat.eqb_spec i j); [congruence|reflexivity]]).
        eapply tv_spawn; auto. autorewrite with ep. destruct (Nat.eqb_spec i j); [congruence|].
        rewrite Ei, Nat.eqb_refl. reflexivity.
      * apply tv_other; step_cases H; autorewrite with ep; try (destruct (Nat.eqb_spec i j); [congruence|]); rewrite ?(proj2 (Nat.eqb_neq _ _) Ei); try reflexivity;
          cbn [existsb by_task]; rewrite ?(proj2 (Nat.eqb_neq j i) N); reflexivity.
  - destruct (Nat.eq_dec i (length (e_tasks s))) as [Ei|Ei].
    + assert (Hn : nth_error (e_tasks s) i = None) by (apply nth_error_None; lia).
      step_cases H; try (apply tv_other; autorewrite with ep; reflexivity);
        (eapply tv_called with (n := m) (e := e); [exact Ei|left; rewrite Ei; reflexivity|autorewrite with ep; rewrite Ei, Nat.eqb_refl]);
        match goal with
        | H1 : match ev_ns e with _ => _ end = Some ?x, H3 : eh_get (ns_handler ?x) _ = _ |- _ =>
            destruct (ev_ns e) as [ns|]; [|discriminate H1]; cbn [callbacks]; rewrite H1, H3; reflexivity
        | H3 : eh_get (cf_handler cf) _ = _ |- _ => change (callbacks cf None) with (cf_handler cf); rewrite H3; reflexivity
        end.
    + apply tv_other; step_cases H; autorewrite with ep; rewrite ?(proj2 (Nat.eqb_neq _ _) Ei); try reflexivity;
      cbn [existsb by_task]; rewrite ?(proj2 (Nat.eqb_neq _ i) (not_eq_sym Ei)); reflexivity.
  - destruct (Nat.eq_dec i (length (e_tasks s))) as [Ei|Ei].
    + assert (Hn : nth_error (e_tasks s) i = None) by (apply nth_error_None; lia).
      step_cases H; try (apply tv_other; autorewrite with ep; reflexivity);
        (eapply tv_called with (n := m) (e := e) (sc := None); [exact Ei|right; autorewrite with ep; rewrite Ei; reflexivity|autorewrite with ep; rewrite Ei, Nat.eqb_refl]);
        match goal with
        | H3 : eh_get (cf_handler cf) _ = _ |- _ => change (callbacks cf None) with (cf_handler cf); rewrite H3; reflexivity
        end.
    + apply tv_other; step_cases H; autorewrite with ep; rewrite ?(proj2 (Nat.eqb_neq _ _) Ei); try reflexivity;
      cbn [existsb by_task]; rewrite ?(proj2 (Nat.eqb_neq _ i) (not_eq_sym Ei)); reflexivity.
  - apply tv_other; step_cases H; autorewrite with ep; reflexivity.
  - apply tv_other; step_cases H; autorewrite with ep; reflexivity.
  - apply tv_other; step_cases H; autorewrite with ep; reflexivity.
  - apply tv_other; step_cases H; autorewrite with ep; reflexivity.
Qed.
