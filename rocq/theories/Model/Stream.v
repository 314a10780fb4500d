(** The streaming methods: FitStream, PredictStream and FitPredictStream, the same code in
    sklearn/linear_model/sgd_regressor.go lines 462-550, sgd_classifier.go, passive_aggressive.go
    lines 555-585 (FitStream only), sklearn/cluster/minibatch_kmeans.go lines 350-397 (without
    FitPredictStream).

    A method runs as a state machine against an environment that sends batches, closes the
    channel, cancels the context and takes results.  A select statement whose cases are both
    ready may take either.  A channel is the list of values sent and not yet received; sent,
    received and delivered values are recorded.  The model's own methods are arguments. *)
From Coq Require Import List Bool.
From Verif Require Import Base.GoRes.
Import ListNotations.
Local Open Scope list_scope.

(** ctx.Err() *)
Definition ECtx : err := EOther 1000.

Section Stream.
Variables (S B X P : Type).
(** PartialFit(batch.X, batch.Y, nil): new model state and result. *)
Variable pfit : S -> B -> S * res unit.
Variable fitted : S -> bool.
Variable predict : S -> X -> res P.
Variable bx : B -> X.

(** *** FitStream: sgd_regressor.go lines 462-476 *)
Inductive fctl : Type := Loop | Done (r : res unit).
Record fsw : Type := mkfs { f_queue : list B; f_closed : bool; f_cancelled : bool; f_st : S; f_ctl : fctl; f_rcvd : list B; f_sent : list B }.
Definition fs_init (s : S) : fsw := mkfs [] false false s Loop [] [].
(** The environment. *)
Inductive fs_env : fsw -> fsw -> Prop :=
| FSend b q cn s c rc sn : fs_env (mkfs q false cn s c rc sn) (mkfs (q ++ [b]) false cn s c rc (sn ++ [b]))
| FClose q cn s c rc sn : fs_env (mkfs q false cn s c rc sn) (mkfs q true cn s c rc sn)
| FCancel q cl cn s c rc sn : fs_env (mkfs q cl cn s c rc sn) (mkfs q cl true s c rc sn).
(** The method. *)
Definition after (r : res unit) : fctl := match r with Ok _ => Loop | r => Done r end.
Inductive fs_run : fsw -> fsw -> Prop :=
| FStop q cl s rc sn : fs_run (mkfs q cl true s Loop rc sn) (mkfs q cl true s (Done (Err ECtx)) rc sn)
| FRecv b q cl cn s rc sn :
    fs_run (mkfs (b :: q) cl cn s Loop rc sn) (mkfs q cl cn (fst (pfit s b)) (after (snd (pfit s b))) (rc ++ [b]) sn)
| FEnd cn s rc sn : fs_run (mkfs [] true cn s Loop rc sn) (mkfs [] true cn s (Done (Ok tt)) rc sn).
Inductive fs_steps : fsw -> fsw -> Prop :=
| fs_refl w : fs_steps w w
| fs_more w w' w'' : fs_steps w w' -> fs_env w' w'' \/ fs_run w' w'' -> fs_steps w w''.

(** *** PredictStream: sgd_regressor.go lines 479-510.  The model may be changed by other
    goroutines meanwhile; the state at the time of the prediction is recorded with the input.
    A panic in Predict ends the program. *)
Inductive pctl : Type := PLoop | PSend (p : P) | PDone | PCrash.
Record psw : Type := mkps { p_queue : list X; p_closed : bool; p_cancelled : bool; p_st : S; p_ctl : pctl; p_rcvd : list (S * X); p_sent : list X; p_outs : list P }.
Definition ps_init (s : S) : psw := mkps [] false false s PLoop [] [] [].
Inductive ps_env : psw -> psw -> Prop :=
| PSendX x q cn s c rc sn o : ps_env (mkps q false cn s c rc sn o) (mkps (q ++ [x]) false cn s c rc (sn ++ [x]) o)
| PClose q cn s c rc sn o : ps_env (mkps q false cn s c rc sn o) (mkps q true cn s c rc sn o)
| PCancel q cl cn s c rc sn o : ps_env (mkps q cl cn s c rc sn o) (mkps q cl true s c rc sn o)
| PChange s' q cl cn s c rc sn o : ps_env (mkps q cl cn s c rc sn o) (mkps q cl cn s' c rc sn o)
| PTake p q cl cn s rc sn o : ps_env (mkps q cl cn s (PSend p) rc sn o) (mkps q cl cn s PLoop rc sn (o ++ [p])).
Inductive ps_run : psw -> psw -> Prop :=
| PStop q cl s rc sn o : ps_run (mkps q cl true s PLoop rc sn o) (mkps q cl true s PDone rc sn o)
| PRecv x q cl cn s rc sn o :
    ps_run (mkps (x :: q) cl cn s PLoop rc sn o)
      (mkps q cl cn s (match predict s x with Ok p => PSend p | Err _ => PLoop | Panic => PCrash end) (rc ++ [(s, x)]) sn o)
| PEnd cn s rc sn o : ps_run (mkps [] true cn s PLoop rc sn o) (mkps [] true cn s PDone rc sn o)
| PDrop p q cl s rc sn o : ps_run (mkps q cl true s (PSend p) rc sn o) (mkps q cl true s PDone rc sn o).
Inductive ps_steps : psw -> psw -> Prop :=
| ps_refl w : ps_steps w w
| ps_more w w' w'' : ps_steps w w' -> ps_env w' w'' \/ ps_run w' w'' -> ps_steps w w''.

(** *** FitPredictStream: sgd_regressor.go lines 513-550.  Only this goroutine trains the model. *)
Inductive tctl : Type := TLoop | TSend (p : P) (b : B) | TDone | TCrash.
Record tsw : Type := mkts { t_queue : list B; t_closed : bool; t_cancelled : bool; t_st : S; t_ctl : tctl; t_rcvd : list B; t_sent : list B; t_outs : list P }.
Definition ts_init (s : S) : tsw := mkts [] false false s TLoop [] [] [].
(** Training; the error is dropped. *)
Definition trained (r : res unit) : tctl := match r with Panic => TCrash | _ => TLoop end.
Inductive ts_env : tsw -> tsw -> Prop :=
| TSendB b q cn s c rc sn o : ts_env (mkts q false cn s c rc sn o) (mkts (q ++ [b]) false cn s c rc (sn ++ [b]) o)
| TClose q cn s c rc sn o : ts_env (mkts q false cn s c rc sn o) (mkts q true cn s c rc sn o)
| TCancel q cl cn s c rc sn o : ts_env (mkts q cl cn s c rc sn o) (mkts q cl true s c rc sn o)
| TTake p b q cl cn s rc sn o :
    ts_env (mkts q cl cn s (TSend p b) rc sn o) (mkts q cl cn (fst (pfit s b)) (trained (snd (pfit s b))) rc sn (o ++ [p])).
Inductive ts_run : tsw -> tsw -> Prop :=
| TStop q cl s rc sn o : ts_run (mkts q cl true s TLoop rc sn o) (mkts q cl true s TDone rc sn o)
| TRecvPredict b p q cl cn s rc sn o :
    fitted s = true -> predict s (bx b) = Ok p ->
    ts_run (mkts (b :: q) cl cn s TLoop rc sn o) (mkts q cl cn s (TSend p b) (rc ++ [b]) sn o)
| TRecvCrash b q cl cn s rc sn o :
    fitted s = true -> predict s (bx b) = Panic ->
    ts_run (mkts (b :: q) cl cn s TLoop rc sn o) (mkts q cl cn s TCrash (rc ++ [b]) sn o)
| TRecvTrain b q cl cn s rc sn o :
    fitted s = false \/ (exists e, predict s (bx b) = Err e) ->
    ts_run (mkts (b :: q) cl cn s TLoop rc sn o) (mkts q cl cn (fst (pfit s b)) (trained (snd (pfit s b))) (rc ++ [b]) sn o)
| TEnd cn s rc sn o : ts_run (mkts [] true cn s TLoop rc sn o) (mkts [] true cn s TDone rc sn o)
| TDrop p b q cl s rc sn o : ts_run (mkts q cl true s (TSend p b) rc sn o) (mkts q cl true s TDone rc sn o).
Inductive ts_steps : tsw -> tsw -> Prop :=
| ts_refl w : ts_steps w w
| ts_more w w' w'' : ts_steps w w' -> ts_env w' w'' \/ ts_run w' w'' -> ts_steps w w''.

End Stream.
Arguments mkfs {S B}. Arguments f_queue {S B}. Arguments f_closed {S B}. Arguments f_cancelled {S B}.
Arguments f_st {S B}. Arguments f_ctl {S B}. Arguments f_rcvd {S B}. Arguments f_sent {S B}.
Arguments mkps {S X P}. Arguments p_queue {S X P}. Arguments p_closed {S X P}. Arguments p_cancelled {S X P}.
Arguments p_st {S X P}. Arguments p_ctl {S X P}. Arguments p_rcvd {S X P}. Arguments p_sent {S X P}. Arguments p_outs {S X P}.
Arguments mkts {S B P}. Arguments t_queue {S B P}. Arguments t_closed {S B P}. Arguments t_cancelled {S B P}.
Arguments t_st {S B P}. Arguments t_ctl {S B P}. Arguments t_rcvd {S B P}. Arguments t_sent {S B P}. Arguments t_outs {S B P}.
Arguments fs_init {S B}. Arguments ps_init {S X P}. Arguments ts_init {S B P}.
Arguments PLoop {P}. Arguments PSend {P}. Arguments PDone {P}. Arguments PCrash {P}.
Arguments TLoop {B P}. Arguments TSend {B P}. Arguments TDone {B P}. Arguments TCrash {B P}.
