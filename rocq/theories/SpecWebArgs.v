(** What the arguments of the web server mean: a grammar, without a parser. *)
From Coq Require Import List String Ascii NArith.
From Verif Require Import Base WebArgsM SpecArgs SpecFmt.
Import ListNotations.
Local Open Scope string_scope.

Inductive remark :=
| RRoot (s : string) | RStatic (s : string) | RRepos (l : list string) | REndpoint (s : string) | RPort (n : N) | RCert (s : string) | RKey (s : string).

(** A port: decimal digits with or without a plus; zero can also have a minus. *)
Definition port_text (v : string) (n : N) : Prop :=
  exists d, read_dec d = Some n /\ ((v = d \/ v = "+" ++ d) /\ (n < 2 ^ 16)%N \/ v = "-" ++ d /\ n = 0%N).
(** An option with one value, long or short. *)
Definition with_value (name : string) (c : ascii) (v : string) (args : list string) : Prop := long_value name v args \/ short_value c v args.

Inductive remark_part : list string -> remark -> Prop :=
| rp_root v args : with_value "root" "r" v args -> v <> "" -> remark_part args (RRoot v)
| rp_static v args : with_value "static" "s" v args -> v <> "" -> remark_part args (RStatic v)
| rp_repo v : remark_part ["--repos=" ++ v] (RRepos [v])
| rp_repos vs : Forall (fun v => ~ dashed v) vs -> remark_part ("--repos" :: vs) (RRepos vs)
| rp_endpoint v args : with_value "endpoint" "e" v args -> remark_part args (REndpoint v)
| rp_port v n args : with_value "port" "p" v args -> port_text v n -> remark_part args (RPort n)
| rp_cert v args : long_value "cert" v args -> remark_part args (RCert v)
| rp_key v args : long_value "key" v args -> remark_part args (RKey v).
(** The arguments are such parts, one after the other; "--" can stand at the end. *)
Inductive remarks : list string -> list remark -> Prop :=
| rs_nil : remarks [] []
| rs_end : remarks ["--"] []
| rs_part a r rest rs : remark_part a r -> remarks rest rs -> remarks (a ++ rest)%list (r :: rs).

Definition remarked {A} (f : remark -> option A) (rs : list remark) : list A :=
  flat_map (fun r => match f r with Some a => [a] | None => [] end) rs.
Definition r_root r := match r with RRoot s => Some s | _ => None end.
Definition r_static r := match r with RStatic s => Some s | _ => None end.
Definition r_repos r := match r with RRepos s => Some s | _ => None end.
Definition r_endpoint r := match r with REndpoint s => Some s | _ => None end.
Definition r_port r := match r with RPort s => Some s | _ => None end.
Definition r_cert r := match r with RCert s => Some s | _ => None end.
Definition r_key r := match r with RKey s => Some s | _ => None end.
(** Remarked once, or not at all and then it is the default. *)
Definition or_default {A} (l : list A) (default a : A) : Prop := l = [a] \/ l = [] /\ a = default.
Definition at_most {A} (l : list A) (o : option A) : Prop := l = match o with Some a => [a] | None => [] end.

(** The certificate and the key come together. *)
Definition server_means (argv : list string) (c : server_args) : Prop :=
  exists rs, remarks argv rs /\
    or_default (remarked r_root rs) "root/" (sa_root c) /\
    or_default (remarked r_static rs) "web/static" (sa_static c) /\
    sa_repos c = (match remarked r_repos rs with [] => ["polkadot"] | l => List.concat l end) /\
    or_default (remarked r_endpoint rs) "127.0.0.1" (sa_endpoint c) /\
    or_default (remarked r_port rs) 8080%N (sa_port c) /\
    at_most (remarked r_cert rs) (sa_cert c) /\ at_most (remarked r_key rs) (sa_key c) /\
    (sa_cert c = None <-> sa_key c = None).
