(** A concrete catalog for the examples. *)
Require Import List String Ascii Bool ZArith.
Require Import Verif.Base Verif.Ident Verif.Schema Verif.IdentSpec Verif.Fetch Verif.FetchSpec.
Import ListNotations.
Open Scope string_scope.
Open Scope list_scope.

(** Two tables of the same name in two schemas, each with a check constraint. *)
Definition sample_columns : list raw_column :=
  [mkRawCol "id" true false 8 "a" 1 1 1000 1 1 false "" "" "" "" false "bigint";
   mkRawCol "name" false false (-1) "" 0 0 0 0 0 false "C" "pg_catalog" "''::text" "" false "text"].
Definition sample_catalog : catalog :=
  mkCat (Ok ["public"; "audit"]) (Ok [mkRawExt "pgcrypto" "1.3" "public"]) (Ok [mkRawEnum "color" "audit" ["red"]])
    (Ok [mkRawTab "1" "users" "public" "d" false false "" "" "" ""; mkRawTab "2" "users" "audit" "d" true false "" "" "" ""])
    (fun _ => Ok sample_columns)
    (Ok [mkRawCheck "11" "recent" ["id"] "users" "audit" true false "(id > 10)";
         mkRawCheck "12" "positive" ["id"] "users" "public" true false "(id > 0)"])
    (Ok [mkRawPol "p" "users" "audit" true ["PUBLIC"] "r" "" "true" []])
    (Ok [mkRawPriv "users" "public" "app" "SELECT" (Some true)])
    (Ok [mkRawIdx "users_pkey" "users" "public" RelTable "CREATE UNIQUE INDEX users_pkey ON public.users USING btree (id)"
           "users_pkey" "p" "PRIMARY KEY (id)" true true "" "" ["id"] true])
    (Ok []) (Ok [mkRawSeq "public" "s" "public" "users" "id" "bigint" 1 1 100 1 1 false])
    (Ok []) (Ok []) (fun _ _ => Ok []) (Ok [])
    (Ok [mkRawView "public" "v" ["security_barrier=true"] "" ["json"] "SELECT 1"]) (Ok [])
    (fun _ => Ok ("public", "users", ["id"])).

Lemma sample_catalog_sound : sound_rows sample_catalog.
Proof.
  constructor; intros l r E H; injection E as <-; simpl in H;
    repeat (destruct H as [<-|H]; [split; vm_compute; reflexivity|]); destruct H.
Qed.
