(** The settings a server is started with: flags, environment variables and the
    configuration file, cmd/root.go 45-89, cmd/serve.go 11-54 and
    server/veriserviceserver.go 16-78.

    The packages cobra, pflag and viper (v1.8.1) are modelled by what they do with
    these settings: a flag that was given beats a variable, a variable that is not
    empty beats the file, and the default value of a flag comes last. *)
From Verif.Base Require Import GoBase.
From Verif.Model Require Import Codec Node Serve.
Open Scope N_scope.

(** The flags of a command line that was accepted; None: not given.  The port is an
    int of 64 bits.
    cmd/root.go 53, cmd/serve.go 49-53. *)
Record flags := mkFlags {
  fConfig : option bytes; fServices : option bytes; fPort : option Z;
  fBroadcast : option bytes; fDirectory : option bytes }.

(** A value in a configuration file: a text, or anything else (a number, a list).
    cmd/serve.go 36. *)
Inductive setting := Text (s : bytes) | Other.

(** A configuration file: its values by key in lower case.
    cmd/root.go 84. *)
Definition settings := bytes -> option setting.

(** Where viper looks for the file: at a path, or in a folder for config with any
    known ending.
    cmd/root.go 70 and 79-81. *)
Inductive config_place := AtPath (p : bytes) | InFolder (d : bytes).

(** What the process finds: environment variables, the home folder, and the
    configuration files that can be read.
    cmd/root.go 61-89. *)
Record host := mkHost {
  hEnv : bytes -> option bytes; hHome : option bytes; hFile : config_place -> option settings }.

(** An environment variable for viper, which ignores empty ones.
    cmd/root.go 62. *)
Definition variable (h : host) (name : bytes) : option bytes :=
  match hEnv h name with Some (c :: v) => Some (c :: v) | _ => None end.

(** cfgFile after cmd/root.go 63-65.  AutomaticEnv looks at CONFIG before the bound
    variable VERICONFIG (cmd/root.go 56). *)
Definition cfgFile (h : host) (f : flags) : bytes :=
  match fConfig f with
  | Some (c :: p) => c :: p
  | _ =>
      match variable h (bs "CONFIG") with
      | Some p => p
      | None => match variable h (bs "VERICONFIG") with Some p => p | None => [] end
      end
  end.

(** initConfig, cmd/root.go 61-89: the values of the configuration file, none if it
    cannot be read.  None: the process exits (line 76). *)
Definition initConfig (h : host) (f : flags) : option settings :=
  match cfgFile h f with
  | c :: p => Some (match hFile h (AtPath (c :: p)) with Some m => m | None => fun _ => None end)
  | [] =>
      match hHome h with
      | None => None
      | Some home =>
          Some (match hFile h (InFolder (home ++ bs "/.veri")) with Some m => m | None => fun _ => None end)
      end
  end.

(** viper.Get("broadcast"), cmd/serve.go 36 and 52. *)
Definition viper_broadcast (h : host) (m : settings) (f : flags) : setting :=
  match fBroadcast f with
  | Some b => Text b
  | None =>
      match variable h (bs "BROADCAST") with
      | Some b => Text b
      | None => match m (bs "broadcast") with Some v => v | None => Text [] end
      end
  end.

(** A flag or its default value, cmd/serve.go 49-53. *)
Definition given {A} (o : option A) (d : A) : A := match o with Some a => a | None => d end.

(** configMap, cmd/serve.go 30-41. *)
Record config_map := mkMap { mServices : bytes; mPort : Z; mBroadcast : bytes; mDirectory : bytes }.
(** cmd/serve.go 30-41. *)
Definition configMap (h : host) (m : settings) (f : flags) : config_map :=
  mkMap (given (fServices f) []) (given (fPort f) 10000%Z)
    (match viper_broadcast h m f with Text b => b | Other => given (fBroadcast f) [] end)
    (given (fDirectory f) []).

(** NodeConfig, node/node.go 31-37. *)
Record node_config := mkNC { ncPort : N; ncFolder : bytes; ncAdvertisedIds : list bytes; ncServices : list bytes }.

(** fmt of an int, server/veriserviceserver.go 66. *)
Definition int_text (z : Z) : bytes :=
  if (z <? 0)%Z then 45 :: decimal (Z.to_N (- z)) else decimal (Z.to_N z).

(** RunServer up to NewNode, server/veriserviceserver.go 20-78; [temp] is the
    temporary folder made if none is given. *)
Definition RunServer (temp : bytes) (c : config_map) : node_config :=
  mkNC (Z.to_N (mPort c mod 4294967296)) (folder (mDirectory c) temp)
    (match mBroadcast c with
     | [] => []
     | b => map (fun a => if existsb (N.eqb colon) a then a else a ++ colon :: int_text (mPort c)) (split_comma b)
     end)
    (match mServices c with [] => [] | s => split_comma s end).

(** veri serve: the node that is started, None if the process exits before.
    cmd/root.go 38-47, cmd/serve.go 29-44. *)
Definition serve (h : host) (temp : bytes) (f : flags) : option node_config :=
  match initConfig h f with
  | None => None
  | Some m => Some (RunServer temp (configMap h m f))
  end.
(** The address the node listens at, node/nodeservice.go 157. *)
Definition listen_address (c : node_config) : bytes := bs "0.0.0.0:" ++ decimal (ncPort c).
