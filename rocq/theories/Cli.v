(** Model of the command line: cmd/pg-schema-diff flags.go, datastructs.go, plan_cmd.go (parsing and the SQL script) and
    dump_cmd.go. Definitions only.

    The logfmt decoder, regexp.Compile, time.ParseDuration and pgx.ParseConfig are libraries: arbitrary functions.
    Not modelled: cobra's own flag parsing, the JSON and pretty outputs, the texts of errors other than the ones below. *)
Require Import List String Ascii Bool ZArith.
Require Import Verif.Base Verif.Ident Verif.Schema Verif.Plan Verif.PlanOps.
Import ListNotations.
Open Scope string_scope.
Open Scope list_scope.

(** The libraries. [lb_logfmt]: the records of key/value pairs the decoder yields for a text, and its final error.
    [lb_duration]: nanoseconds. [lb_regex]: what the compiled expression matches. [lb_config]: a connection configuration. *)
Record libs (C : Type) : Type := mkLibs {
  lb_logfmt : string -> list (list (string * string)) * option string;
  lb_duration : string -> option Z;
  lb_regex : string -> option (string -> bool);
  lb_config : string -> option C }.
Arguments lb_logfmt {C}. Arguments lb_duration {C}. Arguments lb_regex {C}. Arguments lb_config {C}.

(** flags.go:64-71 the inner loop: a second value for a key is an error. The map is a list. *)
Fixpoint add_pairs (m kvs : list (string * string)) : result (list (string * string)) :=
  match kvs with
  | [] => Ok m
  | kv :: kvs' => if has_key fst (fst kv) m then Err (ErrOther "duplicate key") else add_pairs (m ++ [kv]) kvs'
  end.

(** flags.go:61-76 [logFmtToMap]. *)
Definition log_fmt_to_map {C} (lb : libs C) (s : string) : result (list (string * string)) :=
  let '(records, e) := lb_logfmt lb s in
  do m <- add_pairs [] (List.concat records);
  match e with Some t => Err (ErrOther t) | None => Ok m end.

(** datastructs.go:7-14 [mustGetAndDeleteKey]. *)
Definition get_and_delete (m : list (string * string)) (k : string) : result (string * list (string * string)) :=
  match find (fun kv => String.eqb (fst kv) k) m with
  | Some kv => Ok (snd kv, filter (fun kv => negb (String.eqb (fst kv) k)) m)
  | None => Err (ErrOther "could not find key")
  end.

Definition or_err {A} (o : option A) (t : string) : result A := match o with Some a => Ok a | None => Err (ErrOther t) end.

(** plan_cmd.go:131-134 [timeoutModifier] with its duration in nanoseconds. *)
Record time_modifier : Type := mkTm { tm_re : string -> bool; tm_ns : Z }.

(** plan_cmd.go:370-404 [parseTimeoutModifier]. *)
Definition parse_timeout_modifier {C} (lb : libs C) (s : string) : result time_modifier :=
  do m <- log_fmt_to_map lb s;
  do p <- get_and_delete m "pattern";
  do t <- get_and_delete (snd p) "timeout";
  match snd t with
  | _ :: _ => Err (ErrOther "unknown keys")
  | [] => do d <- or_err (lb_duration lb (fst t)) "duration";
          do re <- or_err (lb_regex lb (fst p)) "pattern";
          Ok (mkTm re d)
  end.

(** strconv.Atoi: an optional sign and decimal digits, within 64 bits. Standard library, used at plan_cmd.go:437. *)
Definition digit (c : ascii) : option Z :=
  let n := Z.of_nat (nat_of_ascii c) in if (48 <=? n)%Z && (n <=? 57)%Z then Some (n - 48)%Z else None.
Fixpoint digits (acc : Z) (s : string) : option Z :=
  match s with
  | EmptyString => Some acc
  | String c s' => match digit c with Some d => digits (10 * acc + d)%Z s' | None => None end
  end.
Definition atoi (s : string) : option Z :=
  let n := match s with
           | EmptyString => None
           | String "-" EmptyString => None
           | String "+" EmptyString => None
           | String "-" s' => option_map Z.opp (digits 0 s')
           | String "+" s' => digits 0 s'
           | _ => digits 0 s
           end in
  match n with Some v => if (- 2 ^ 63 <=? v)%Z && (v <? 2 ^ 63)%Z then Some v else None | None => None end.

(** plan_cmd.go:136-141 [insertStatement] with durations in nanoseconds. *)
Record insert_request : Type := mkReq { rq_ddl : string; rq_index : Z; rq_ns : Z; rq_lock_ns : Z }.

(** plan_cmd.go:406-457 [parseInsertStatementStr]. *)
Definition parse_insert_statement {C} (lb : libs C) (s : string) : result insert_request :=
  do m <- log_fmt_to_map lb s;
  do i <- get_and_delete m "index";
  do q <- get_and_delete (snd i) "statement";
  do t <- get_and_delete (snd q) "timeout";
  do l <- get_and_delete (snd t) "lock_timeout";
  match snd l with
  | _ :: _ => Err (ErrOther "unknown keys")
  | [] => do n <- or_err (atoi (fst i)) "index";
          do d <- or_err (lb_duration lb (fst t)) "statement timeout";
          do e <- or_err (lb_duration lb (fst l)) "lock timeout";
          Ok (mkReq (fst q) n d e)
  end.

(** plan_cmd.go:112-124 [planOptionsFlags]. *)
Record plan_flags : Type := mkFlags {
  fl_include : list string; fl_exclude : list string;
  fl_pack : bool; fl_no_validation : bool; fl_noconc : bool;
  fl_statement : list string; fl_lock : list string; fl_insert : list string }.

(** The options handed to plan generation (plan_generator.go:44-114), in the order given. *)
Inductive plan_opt : Type := OInclude (l : list string) | OExclude (l : list string) | OPack | ONoValidate | ONoConc.

(** plan_cmd.go:144-149 [planOptions]. *)
Record plan_options : Type := mkPlanOptions {
  po_opts : list plan_opt; po_statement : list time_modifier; po_lock : list time_modifier; po_insert : list insert_request }.

(** plan_cmd.go:317-366 [parsePlanOptions]. *)
Definition parse_plan_options {C} (lb : libs C) (p : plan_flags) : result plan_options :=
  let opts := [OInclude (fl_include p); OExclude (fl_exclude p)] ++
              (if fl_pack p then [OPack] else []) ++ (if fl_no_validation p then [ONoValidate] else []) ++
              (if fl_noconc p then [ONoConc] else []) in
  do ss <- map_res (parse_timeout_modifier lb) (fl_statement p);
  do ls <- map_res (parse_timeout_modifier lb) (fl_lock p);
  do is <- map_res (parse_insert_statement lb) (fl_insert p);
  Ok (mkPlanOptions opts ss ls is).

(** flags.go:12-20 [connectionFlags], without the names of the flags. *)
Record conn_flags : Type := mkConn { cf_dsn : string; cf_empty : bool }.

(** flags.go:42-44 [IsSet]. *)
Definition is_set (f : conn_flags) : bool := negb (String.eqb (cf_dsn f) "") || cf_empty f.

(** flags.go:46-55 [parseConnectionFlags]. *)
Definition parse_connection_flags {C} (lb : libs C) (f : conn_flags) : result C :=
  if negb (cf_empty f) && String.eqb (cf_dsn f) "" then Err (ErrOther "must specify either")
  else or_err (lb_config lb (cf_dsn f)) "could not parse connection string".

(** plan_cmd.go:152-159 [schemaSourceFactoryFlags]; a source is a list of directories or a database. *)
Record source_flags : Type := mkSource { sf_dirs : list string; sf_conn : conn_flags }.
Inductive source (C : Type) : Type := FromDirs (l : list string) | FromDb (c : C).
Arguments FromDirs {C}. Arguments FromDb {C}.

(** plan_cmd.go:273-302 [parseSchemaSource]. *)
Definition parse_schema_source {C} (lb : libs C) (p : source_flags) : result (source C) :=
  let ssf := match sf_dirs p with [] => None | d => Some (FromDirs d) end in
  do ssf' <- (if is_set (sf_conn p)
              then match ssf with
                   | Some _ => Err (ErrOther "only one of")
                   | None => do c <- parse_connection_flags lb (sf_conn p); Ok (Some (FromDb c))
                   end
              else Ok ssf);
  or_err ssf' "either must be set".

(** plan_cmd.go:51-104: what the plan command parses before generating: both sources, the server of the temporary
    databases, the options. *)
Record plan_request (C : Type) : Type := mkPlanRequest { pr_from : source C; pr_to : source C; pr_temp : C; pr_options : plan_options }.
Arguments mkPlanRequest {C}. Arguments pr_from {C}. Arguments pr_to {C}. Arguments pr_temp {C}. Arguments pr_options {C}.
Definition parse_plan_cmd {C} (lb : libs C) (from to : source_flags) (temp : conn_flags) (p : plan_flags) : result (plan_request C) :=
  do f <- parse_schema_source lb from;
  do t <- parse_schema_source lb to;
  do c <- (if is_set temp then Ok temp
           else if is_set (sf_conn from) then Ok (sf_conn from)
           else if is_set (sf_conn to) then Ok (sf_conn to)
           else Err (ErrOther "at least one Postgres server must be provided"));
  do cfg <- parse_connection_flags lb c;
  do o <- parse_plan_options lb p;
  Ok (mkPlanRequest f t cfg o).

(** apply_cmd.go:31-47: the same for the apply command, whose source is always a database. *)
Definition parse_apply_cmd {C} (lb : libs C) (from : conn_flags) (to : source_flags) (p : plan_flags) : result (plan_request C) :=
  do cfg <- parse_connection_flags lb from;
  do t <- parse_schema_source lb to;
  do o <- parse_plan_options lb p;
  Ok (mkPlanRequest (FromDb cfg) t cfg o).

(** Duration.Milliseconds (plan_cmd.go:622-623, apply_cmd.go:146-149) truncates. Plans hold milliseconds in this model;
    since the modifiers only replace timeouts, truncating them beforehand is the same. *)
Definition milliseconds (ns : Z) : Z := Z.quot ns 1000000.
Definition as_modifier (t : time_modifier) : modifier := mkMod (tm_re t) (milliseconds (tm_ns t)).
Definition as_insertion (r : insert_request) : insertion := mkIns (rq_ddl r) (rq_index r) (milliseconds (rq_ns r)) (milliseconds (rq_lock_ns r)).

(** plan_cmd.go:508-511: the plan after the modifiers. *)
Definition modified (o : plan_options) (p : plan) : result plan :=
  apply_plan_modifiers (map as_modifier (po_statement o)) (map as_modifier (po_lock o)) (map as_insertion (po_insert o)) p.

(** plan_cmd.go:593-599 [hazardToPrettyS]. *)
Definition hazard_text (h : hazard) : string :=
  if String.eqb (hz_msg h) "" then hazard_type_text (hz_type h) else sconcat [hazard_type_text (hz_type h); ": "; hz_msg h].

Definition nl : string := String "010" EmptyString.

(** plan_cmd.go:613-624: one statement of the script. *)
Definition sql_block (i : nat) (s : statement) : string :=
  sconcat (["/*"; nl; "Statement "; z_to_string (Z.of_nat i); nl] ++ map (fun h => sconcat ["  - "; hazard_text h; nl]) (st_hazards s) ++
           ["*/"; nl; "SET SESSION statement_timeout = "; z_to_string (st_timeout s); ";"; nl;
            "SET SESSION lock_timeout = "; z_to_string (st_lock s); ";"; nl; render (st_ddl s); ";"]).
Fixpoint sql_blocks (i : nat) (ss : list statement) : list string :=
  match ss with [] => [] | s :: ss' => sql_block i s :: sql_blocks (S i) ss' end.
(** plan_cmd.go:611-630 [planToSql]. *)
Definition plan_to_sql (p : plan) : string := join (nl ++ nl)%string (sql_blocks 0 (pl_statements p)).

(** dump_cmd.go:95-105 [dumpToSql]. *)
Definition dump_to_sql (p : plan) : string := join (nl ++ nl)%string (map (fun s => sconcat [render (st_ddl s); ";"]) (pl_statements p)).

(** plan_cmd.go:167-197, 203-213 the output formats and [Set]. *)
Inductive out_format : Type := FmtSql | FmtPretty | FmtJson.
Definition fmt_name (f : out_format) : string := match f with FmtSql => "sql" | FmtPretty => "pretty" | FmtJson => "json" end.
Definition set_format (v : string) : result out_format :=
  or_err (find (fun f => String.eqb (fmt_name f) v) [FmtSql; FmtPretty; FmtJson]) "invalid output format".
