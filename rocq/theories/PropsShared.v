(** The data shared by the contexts of one build: C73. *)
From Coq Require Import Lia.
From Verif Require Import Base Shared SpecShared SharedFacts SharedRuns SharedClaims.
Open Scope nat_scope.

(** C73: what [get] returns is the last value anyone stored under that key through any context of the same build, on whatever connection
    and from whatever task, or what the builder was given. *)
Theorem C73_reads_see_the_latest : forall Val (l : list (act Val)) os o w g k,
  history (l ++ [AGet g k]) (os ++ [Some o]) w -> exists d kd, made l g d kd /\ latest l d k o.
Proof. intros Val l os o w g k. apply reads_latest. Qed.
(** (for every key of every build there is exactly one such value) *)
Theorem C73_latest_is_unique : forall Val (l : list (act Val)) d k, d < length (builds l) -> exists! o, latest l d k o.
Proof. intros Val l d k H. destruct (latest_exists l d k H) as (o & O). exists o. split; [exact O|]. intros o' O'. eapply latest_fun; eauto. Qed.

(** C73: while somebody has the data of a build locked for writing, nobody else has it locked. *)
Theorem C73_writers_exclude : forall Val (l : list (act Val)) os w g h d k,
  history l os w -> made l g d ForWrite -> holds w g -> made l h d k -> holds w h -> h = g.
Proof. intros Val l os w g h d k. apply writers_exclude. Qed.

(** C73: from the moment a guard is held until it is dropped, only its holder touches the data if it is a write guard, and nobody changes the
    data if it is a read guard. *)
Theorem C73_sections_are_atomic : forall Val (l : list (act Val)) os w g d k mid a os' w' h,
  history l os w -> made l g d k -> holds w g -> history (l ++ mid ++ [a]) os' w' -> ~ In (ADrop g) mid -> touches (l ++ mid) a h d ->
  (k = ForWrite -> h = g) /\ (k = ForRead -> exists key, a = AGet h key).
Proof. intros Val l os w g d k mid a os' w' h. apply atomic. Qed.

(** C73: no update is lost: if every change of a key stores one more than what was read under the same write guard, a later read returns the initial
    value plus the number of changes, however many tasks and connections made them in whatever order. *)
Theorem C73_no_update_is_lost : forall (l : list (act N)) os w g k o d kd m n0 c,
  history (l ++ [AGet g k]) (os ++ [Some o]) w -> made l g d kd -> only_increments l os d k ->
  nth_error (builds l) d = Some m -> lookup N.eqb k m = Some n0 -> puts l d k c -> o = Some (n0 + c)%N.
Proof.
  intros l os w g k o d kd m n0 c H M O B L P. destruct (reads_latest _ _ _ _ _ _ H) as (d' & k' & M' & La). destruct (made_fun _ _ _ _ _ _ M M') as [<- _].
  apply history_snoc in H as (w0 & os0 & o1 & H & _ & E). apply app_inj_tail in E as [<- _].
  eapply latest_fun; [exact La | eapply counted; eauto].
Qed.

(** C73: first come, first served: whoever holds came before everybody it excludes who is not done yet. *)
Theorem C73_nobody_overtakes : forall Val (l : list (act Val)) os w g d k h k',
  history l os w -> made l g d k -> holds w g -> h < g -> made l h d k' -> ~ dropped l h -> ~ excludes k k'.
Proof. intros Val l os w g d k h k0 H M Hg Lt M0 N Ex. exact (no_overtaking l os w g h d k k0 H M Hg Lt M0 N Ex). Qed.

(** C73: nobody waits in vain: a call excluded by no earlier one that is still waiting or held has its guard (unless 2^29 - 1 calls are
    pending). So whoever waits gets the lock once the earlier ones are dropped, no matter how many come later. *)
Theorem C73_nobody_waits_in_vain : forall Val (l : list (act Val)) os w g d k,
  history l os w -> few l d -> made l g d k -> ~ dropped l g ->
  (forall h k', h < g -> made l h d k' -> ~ dropped l h -> ~ excludes k k') -> holds w g.
Proof. intros Val l os w g d k. apply no_idle_waiting. Qed.

(** C73: locking again while holding a guard waits for ever: if one of the two is a write lock, or if somebody asked for a write lock in between and does
    not give up, then whatever the others do, the second call never gets its guard and the first guard is never released. *)
Theorem C73_locking_twice_is_forever : forall Val (l : list (act Val)) os w task g1 g2 d k1 k2 l' os' w',
  history l os w -> made_by l g1 task -> made_by l g2 task -> made l g1 d k1 -> made l g2 d k2 -> holds w g1 -> still_waits w g2 ->
  (excludes k1 k2 \/ exists h, g1 < h < g2 /\ made l h d ForWrite /\ ~ dropped (l ++ l') h) ->
  history (l ++ l') os' w' -> ~ dropped (l ++ l') g2 -> holds w' g1 /\ still_waits w' g2.
Proof. intros Val l os w task g1 g2 d k1 k2 l' os' w'. apply stuck. Qed.

(** Cases: a server (build 0) and a client (build 1) in one process; handlers of connections 5 and 6 of the server count in key 1, another reads,
    while the client uses its own key 1. *)
Definition count2 : list (act N) :=
  [ABuild [(1, 10)%N]; ABuild []; AAsk 1 0 5 ForWrite; AAsk 2 0 6 ForWrite; AAsk 3 1 0 ForWrite; AGet 0 1; APut 2 1 77%N; APut 0 1 11%N; ADrop 0;
   AGet 1 1; APut 1 1 12%N; ADrop 1; AAsk 4 0 7 ForRead].
Example C73_example_counts : exists w, history (count2 ++ [AGet 3 1])
    [None; None; None; None; None; Some (Some 10%N); None; None; None; Some (Some 11%N); None; None; None; Some (Some 12%N)] w /\
  only_increments count2 [None; None; None; None; None; Some (Some 10%N); None; None; None; Some (Some 11%N); None; None; None] 0 1 /\
  puts count2 0 1 2 /\ holds w 3 /\ few (count2 ++ [AGet 3 1]) 0.
Proof.
  eexists. split; [vm_compute; reflexivity|]. split; [|split; [|split]].
  - split.
    + intros pre g v post E M. unfold count2 in E.
      do 6 (destruct pre as [|? pre]; [discriminate E | injection E as <- E]).
      destruct pre as [|? pre]; [injection E as <- <- <-; destruct M as (x & Ex & Dx & _); cbn in Ex; injection Ex as <-; discriminate Dx | injection E as <- E].
      destruct pre as [|? pre]; [injection E as <- <- <-; exists (firstn 5 count2), [APut 2 1 77]%N, 10%N; repeat (split; [reflexivity|]); intros v [X|[]]; discriminate X | injection E as <- E].
      do 2 (destruct pre as [|? pre]; [discriminate E | injection E as <- E]).
      destruct pre as [|? pre]; [injection E as <- <- <-; exists (firstn 9 count2), [], 11%N; repeat (split; [reflexivity|]); intros v [] | injection E as <- E].
      do 2 (destruct pre as [|? pre]; [discriminate E | injection E as <- E]). destruct pre; discriminate E.
    + intros pre g post E. unfold count2 in E. do 13 (destruct pre as [|? pre]; [discriminate E | injection E as <- E]). destruct pre; discriminate E.
  - unfold count2. repeat match goal with |- puts [] _ _ _ => fail 1 | |- puts ?l _ _ _ => 
      let r := eval cbv in (rev l) in match r with ?a :: ?t => let i := eval cbv in (rev t) in change (puts (i ++ [a]) 0 1 2) || change (puts (i ++ [a]) 0 1 1) || change (puts (i ++ [a]) 0 1 0) end;
      first [ apply pu_other; [|intros ? ? X M; try discriminate X; injection X; intros; subst; destruct M as (x & Ex & Dx & _); cbn in Ex; injection Ex as <-; discriminate Dx]
            | apply (pu_put _ _ _ _ _ 1); [|eexists; cbn; auto] | apply (pu_put _ _ _ _ _ 0); [|eexists; cbn; auto] ] end.
    apply pu_nil.
  - eexists. split; reflexivity.
  - apply few_calls. reflexivity.
Qed.
(** ... a writer waiting behind a reader, a reader waiting behind the writer; the writer gives up, then the reader holds *)
Example C73_example_queue : exists w w' os os',
  history ([ABuild []; AAsk 1 0 5 ForRead; AAsk 2 0 5 ForWrite; AAsk 3 0 6 ForRead] : list (act N)) os w /\ holds w 0 /\ still_waits w 1 /\ still_waits w 2 /\
  history ([ABuild []; AAsk 1 0 5 ForRead; AAsk 2 0 5 ForWrite; AAsk 3 0 6 ForRead; ADrop 1] : list (act N)) os' w' /\ holds w' 0 /\ holds w' 2.
Proof.
  do 4 eexists. split; [vm_compute; reflexivity|]. split; [eexists; split; reflexivity|]. split; [eexists; split; reflexivity|]. split; [eexists; split; reflexivity|].
  split; [vm_compute; reflexivity|]. split; eexists; split; reflexivity.
Qed.
(** ... a handler that reads, and reads again while somebody asked to write in between *)
Example C73_example_twice : exists w os,
  history ([ABuild []; AAsk 1 0 5 ForRead; AAsk 2 0 5 ForWrite; AAsk 1 0 5 ForRead] : list (act N)) os w /\ holds w 0 /\ still_waits w 2 /\
  made ([ABuild []; AAsk 1 0 5 ForRead; AAsk 2 0 5 ForWrite; AAsk 1 0 5 ForRead] : list (act N)) 1 0 ForWrite.
Proof.
  do 2 eexists. split; [vm_compute; reflexivity|]. split; [eexists; split; reflexivity|]. split; [eexists; split; reflexivity|]. eexists. split; [reflexivity|]. split; reflexivity.
Qed.

Print Assumptions C73_reads_see_the_latest.
Print Assumptions C73_latest_is_unique.
Print Assumptions C73_writers_exclude.
Print Assumptions C73_sections_are_atomic.
Print Assumptions C73_no_update_is_lost.
Print Assumptions C73_nobody_overtakes.
Print Assumptions C73_nobody_waits_in_vain.
Print Assumptions C73_locking_twice_is_forever.
