(** Model of the arguments of the web server: web/src/main.rs:33-58, as clap 4.5.16 reads them, and of what the start
    of the server does with them (web/src/main.rs:95-173). The scanner is that of [ArgsM]. *)
From Coq Require Import List String Ascii Arith NArith Bool.
From Verif Require Import Base ScopeM TermM F64 CompareM RowsM FmtM SynM ParseM StorageM FilesM GitM CliM WebM SiteM ArgsM.
Import ListNotations.
Local Open Scope string_scope.

(** web/src/main.rs:35-58 *)
Record server_args := {
  sa_root : string; sa_static : string; sa_repos : list string; sa_endpoint : string; sa_port : N; sa_cert : option string; sa_key : option string }.

(** [RangedI64ValueParser] for u16: [str::parse::<i64>], and then the range. *)
Definition port_value (s : string) : option N :=
  let '(negative, d) := match s with
    | String c s' => if Ascii.eqb c "+" then (false, s') else if Ascii.eqb c "-" then (true, s') else (false, s)
    | "" => (false, "") end in
  let n := number 0 d in
  if negb (String.eqb d "") && all_digits d && (if negative then n =? 0 else n <=? 65535)%N then Some n else None.

(** [-V] is left out: like [--version] and [--help], it starts no server. *)
Definition server_decls : list arg :=
  [ mk_arg "root" ["root"] (Some "r"%char) One ArgsM.path_text;
    mk_arg "static" ["static"] (Some "s"%char) One ArgsM.path_text;
    mk_arg "repos" ["repos"] None Many any_text;
    mk_arg "endpoint" ["endpoint"] (Some "e"%char) One any_text;
    mk_arg "port" ["port"] (Some "p"%char) One (fun s => is_some (port_value s));
    mk_arg "cert" ["cert"] None One any_text;
    mk_arg "key" ["key"] None One any_text;
    mk_arg "help" ["help"; "version"] (Some "h"%char) Flag any_text ].

Definition text_or (seen : seen_args) (id default : string) : string :=
  match text_of seen id with Some v => v | None => default end.
(** The derived [FromArgMatches]; [requires] is checked before. *)
Definition server_args_of (seen : seen_args) : option server_args :=
  if Bool.eqb (given seen "cert") (given seen "key") then
    match value_of port_value seen "port" (Some "8080") with
    | Some port => Some
        {| sa_root := text_or seen "root" "root/"; sa_static := text_or seen "static" "web/static";
           sa_repos := if given seen "repos" then values seen "repos" else ["polkadot"];
           sa_endpoint := text_or seen "endpoint" "127.0.0.1"; sa_port := port;
           sa_cert := text_of seen "cert"; sa_key := text_of seen "key" |}
    | None => None
    end
  else None.
Definition read_server_args (argv : list string) : parsed server_args :=
  pbind (scan server_decls 0 argv [] None []) (fun '(seen, _) =>
    match server_args_of seen with Some c => Parsed c | None => Usage end).

(** What the server serves and where it listens: the repositories, the address, and the files for TLS
    (web/src/main.rs:144, 162-171). Whether the address and the files can be used is not modelled. *)
Record service := { sv_repos : list (string * site_repo); sv_address : string; sv_tls : option (string * string) }.
Definition web_main (remote : fpath -> cmd_result * string) (exists_ is_dir : fpath -> bool) (argv : list string) : parsed (outcome service) :=
  pbind (read_server_args argv) (fun c =>
    Parsed (let* repos := start remote exists_ is_dir (path_of (sa_root c)) (sa_static c) (sa_repos c) in
            let address := sa_endpoint c ++ ":" ++ dec_of_N (sa_port c) in
            match sa_cert c with
            | None => Ok {| sv_repos := repos; sv_address := address; sv_tls := None |}
            | Some cert => match sa_key c with
                           | Some key => Ok {| sv_repos := repos; sv_address := address; sv_tls := Some (cert, key) |}
                           | None => Panic "Checked by clap"
                           end
            end)).
