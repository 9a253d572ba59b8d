(** * Model of the configuration of ct-fetch and the aggregation tools
    /repo/go/config/config.go lines 39-198.

    The environment is a function from names to values.  The configuration file is
    None if there is none or it does not load, else the text of each key of its
    default section, empty for a missing key (ini.Section.Key never returns nil).
    The conversions of the ini library are oracles.  Not modelled: how the file is
    found and read, and the parsing of the command line. *)
From Verif Require Import Base QueryModel.
Local Open Scope Z_scope.

Definition env := bytes -> option bytes.
Definition file := option (bytes -> bytes).

(** strconv.ParseUint(s, 10, 64) *)
Definition goUint (s : bytes) : option Z :=
  match s with
  | [] => None
  | _ => match decFrom 0 s with Some n => if (Z.of_N n <? 2 ^ 64) then Some (Z.of_N n) else None | None => None end
  end.
(** strconv.ParseInt(s, 10, 32) *)
Definition goInt (s : bytes) : option Z :=
  match s with
  | [] => None
  | c :: s' =>
      let neg := Byte.eqb c "-" in
      match goUint (if neg || Byte.eqb c "+" then s' else s) with
      | None => None
      | Some n => if neg then (if 2 ^ 31 <? n then None else Some (- n)) else if 2 ^ 31 <=? n then None else Some n
      end
  end.
(** strconv.ParseBool *)
Definition goBool (s : bytes) : option bool :=
  if existsb (beq s) [B "1"; B "t"; B "T"; B "TRUE"; B "true"; B "True"] then Some true
  else if existsb (beq s) [B "0"; B "f"; B "F"; B "FALSE"; B "false"; B "False"] then Some false else None.

Section Config.
  (** Key.Int, Key.Uint64, Key.Bool of gopkg.in/ini.v1 *)
  Variable iniInt : bytes -> option Z.
  Variable iniUint : bytes -> option Z.
  Variable iniBool : bytes -> option bool.

  (** config.go:39-58, 60-81, 83-104: the same function at three types *)
  Definition conf {A} (envParse fileParse : bytes -> option A) (e : env) (f : file) (key : bytes) (def : A) : A :=
    match match e key with Some v => envParse v | None => None end with
    | Some a => a
    | None =>
        match f with
        | None => def
        | Some section => match fileParse (section key) with Some a => a | None => def end
        end
    end.
  Definition confInt := conf goInt iniInt.
  Definition confUint64 := conf goUint iniUint.
  Definition confBool := conf goBool iniBool.
  (** config.go:106-119 *)
  Definition confString (e : env) (f : file) (key : bytes) (def : bytes) : bytes :=
    let v := match f with
             | None => def
             | Some section => if (0 <? length (section key))%nat then section key else def
             end in
    match e key with Some x => x | None => v end.

  (** config.go:18-37 *)
  Record ctconfig := mkConfig {
    cBatchSize : Z; cRemoteSettingsURL : bytes; cCTLogMetadata : bytes; cNumThreads : Z; cLogExpiredEntries : bool; cRunForever : bool;
    cPollingDelay : Z; cRemoteSettingsUpdateInterval : Z; cSavePeriod : bytes; cCertPath : bytes; cGoogleProjectId : bytes; cRedisHost : bytes;
    cRedisTimeout : bytes; cStatsRefreshPeriod : bytes; cStatsDHost : bytes; cStatsDPort : Z; cHealthAddr : bytes }.

  (** config.go:145-198; [flag] is the value of -batchSize, 0 if not given *)
  Definition init (e : env) (f : file) (flag : Z) : ctconfig :=
    mkConfig
      (if 0 <? flag then flag else confUint64 e f (B "batchSize") 4096)
      (confString e f (B "remoteSettingsURL") [])
      (confString e f (B "ctLogMetadata") [])
      (confInt e f (B "numThreads") 1)
      (confBool e f (B "logExpiredEntries") false)
      (confBool e f (B "runForever") false)
      (confUint64 e f (B "pollingDelay") 600)
      (confUint64 e f (B "remoteSettingsUpdateInterval") 3600)
      (confString e f (B "savePeriod") (B "15m"))
      (confString e f (B "certPath") [])
      (confString e f (B "googleProjectId") [])
      (confString e f (B "redisHost") [])
      (confString e f (B "redisTimeout") (B "5s"))
      (confString e f (B "statsRefreshPeriod") (B "10m"))
      (confString e f (B "statsdHost") [])
      (confInt e f (B "statsdPort") 8125)
      (confString e f (B "healthAddr") (B ":8080")).
End Config.
