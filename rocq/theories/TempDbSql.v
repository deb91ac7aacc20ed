(** The calls of successful operations of the temporary database factory, and what its SQL says. *)
Require Import List String Ascii Bool ZArith NArith Lia.
Require Import Verif.Base Verif.BaseFacts Verif.Ident Verif.IdentSpec Verif.IdentProofs Verif.Schema Verif.Plan Verif.SqlSpec Verif.SqlReader Verif.TempDb Verif.TempDbSpec Verif.TempDbProofs.
Import ListNotations.
Open Scope string_scope.
Open Scope list_scope.

Lemma bind_val : forall A B (m : act A) (f : A -> act B) h b t, a_bind m f h = (Val b, t) ->
  exists a t1 t2, m h = (Val a, t1) /\ f a (h ++ t1) = (Val b, t2) /\ t = t1 ++ t2.
Proof.
  intros A B m f h b t H. unfold a_bind in H. destruct (m h) as [[a|e|v r] t1]; try discriminate H. destruct (f a (h ++ t1)) as [r' t2] eqn:E.
  injection H as -> <-. eauto 6.
Qed.
Lemma frame_val : forall A (m : act A) h a t, a_frame m h = (Val a, t) -> m h = (Val a, t).
Proof. intros A m h a t H. unfold a_frame in H. destruct (m h) as [[x|e|v r] t1]; try discriminate H. exact H. Qed.
Lemma on_err_val : forall A (m : act A) f h a t, a_on_err m f h = (Val a, t) -> m h = (Val a, t).
Proof. intros A m f h a t H. unfold a_on_err in H. destruct (m h) as [[x|e|v r] t1]; [exact H|..]; destruct (f _ _) as [[] ?]; discriminate H. Qed.
Lemma defer_close : forall A (m : act A) w c h a t, a_defer m (a_ignore (a_call w c)) h = (Val a, t) -> exists t1 r, m h = (Val a, t1) /\ t = t1 ++ [(c, r)].
Proof.
  intros A m w c h a t H. unfold a_defer, a_ignore, a_call in H. destruct (m h) as [r t1]. exists t1, (w (h ++ t1) c).
  destruct (w (h ++ t1) c); injection H as H <-; try discriminate H; subst; auto.
Qed.
Lemma call_val : forall w c h v t, a_call w c h = (Val v, t) -> w h c = ROk v /\ t = [(c, ROk v)].
Proof. intros w c h v t H. unfold a_call in H. destruct (w h c); try discriminate H. injection H as <- <-. auto. Qed.
Lemma ignored_call : forall w c h u t, a_ignore (a_call w c) h = (Val u, t) -> exists r, t = [(c, r)].
Proof. intros w c h u t H. unfold a_ignore, a_call in H. destruct (w h c); try discriminate H; injection H as _ <-; eauto. Qed.
Lemma open_calls : forall w p h t u, open_connection w p h = (Val u, t) ->
  exists a b, t = [(CConn p, ROk a); (CExec p "SET SESSION statement_timeout = 3000;", ROk b)].
Proof.
  intros w p h t u H. unfold open_connection in H. apply frame_val in H. apply bind_val in H. destruct H as (y1 & s1 & s2 & B1 & B2 & ->). apply call_val in B1. destruct B1 as [_ ->].
  apply on_err_val in B2. apply bind_val in B2. destruct B2 as (y2 & s3 & s4 & B2 & B3 & ->). apply call_val in B2. destruct B2 as [_ ->]. injection B3 as _ <-. exists y1, y2. reflexivity.
Qed.
Lemma assert_calls : forall w p db h u t, assert_database w p db h = (Val u, t) ->
  exists a b x, t = [(CConn p, ROk a); (CExec p "SET SESSION statement_timeout = 3000;", ROk b); (CPoolQuery p "SELECT current_database();", ROk db); (CConnClose p, x)].
Proof.
  intros w p db h u t H. unfold assert_database in H. apply frame_val in H. apply bind_val in H. destruct H as (x & t1 & t2 & A & B & ->).
  apply open_calls in A. destruct A as (a & b & ->).
  apply defer_close in B. destruct B as (t3 & r & B & ->). apply bind_val in B. destruct B as (name & t5 & t6 & B & D & ->). apply call_val in B. destruct B as [_ ->].
  destruct (String.eqb_spec name db) as [->|N]; [|discriminate D]. injection D as _ <-. exists a, b, r. reflexivity.
Qed.
Lemma create_calls : forall w o h db t, create w o h = (Val db, t) -> exists u a b c d e f g x y,
  t = [(CUuid, ROk u); (CConn PRoot, ROk a); (CExec PRoot "SET SESSION statement_timeout = 3000;", ROk b);
       (CExec PRoot ("CREATE DATABASE " ++ db ++ " TEMPLATE template0;"), ROk c); (CMakePool (PTemp db) db, ROk d); (CConn (PTemp db), ROk e);
       (CExec (PTemp db) "SET SESSION statement_timeout = 3000;", ROk f); (CPoolQuery (PTemp db) "SELECT current_database();", ROk db);
       (CConnClose (PTemp db), x); (CPoolExec (PTemp db) (metadata_sql o), ROk g); (CConnClose PRoot, y)]%string /\ db = (fo_prefix o ++ dashes u)%string.
Proof.
  intros w o h db t H. unfold create in H. apply frame_val in H. apply bind_val in H. destruct H as (u & t1 & t2 & A & B & ->).
  apply call_val in A. destruct A as [_ ->]. apply bind_val in B. destruct B as (x & t3 & t4 & B & C & ->). apply open_calls in B. destruct B as (a & b & ->).
  apply defer_close in C. destruct C as (t5 & y & C & ->). cbv zeta in C.
  apply bind_val in C. destruct C as (v1 & t7 & t8 & C & D & ->). apply call_val in C. destruct C as [_ ->]. apply on_err_val in D.
  apply bind_val in D. destruct D as (v2 & t9 & t10 & C & D & ->). apply call_val in C. destruct C as [_ ->]. apply on_err_val in D.
  apply bind_val in D. destruct D as (v3 & t11 & t12 & C & D & ->). apply bind_val in D. destruct D as (v4 & t13 & t14 & F & D & ->). apply call_val in F. destruct F as [_ ->].
  injection D as <- <-. apply assert_calls in C. destruct C as (e & f & z & ->). exists u, a, b, v1, v2, e, f, v4, z, y. split; reflexivity.
Qed.
Lemma close_calls : forall w o db h t, close_temp w o db h = (Val tt, t) -> exists x a b c d y,
  t = [(CPoolClose (PTemp db), x); (CConn PRoot, ROk a); (CExec PRoot "SET SESSION statement_timeout = 3000;", ROk b);
       (CExec PRoot ("SET SESSION statement_timeout = " ++ z_to_string (fo_drop_timeout o) ++ ";"), ROk c);
       (CExec PRoot ("DROP DATABASE " ++ db ++ ";"), ROk d); (CConnClose PRoot, y)]%string.
Proof.
  intros w o db h t H. unfold close_temp in H. apply frame_val in H. apply bind_val in H. destruct H as (u & t1 & t2 & A & B & ->).
  apply ignored_call in A. destruct A as (x & ->).
  unfold drop_temp in B. apply frame_val in B. destruct (negb _); [discriminate B|]. apply bind_val in B. destruct B as (u2 & t3 & t4 & B & C & ->). apply open_calls in B. destruct B as (a & b & ->).
  apply defer_close in C. destruct C as (t5 & y & C & ->). apply bind_val in C. destruct C as (u3 & t7 & t8 & C & E & ->). apply call_val in C. destruct C as [_ ->].
  apply bind_val in E. destruct E as (u4 & t9 & t10 & C & E & ->). apply call_val in C. destruct C as [_ ->]. injection E as <-.
  exists x, a, b, u3, u4, y. reflexivity.
Qed.

(** ** What the SQL says *)
Lemma sanitize_one : forall s, sanitize [s] = escape_identifier s.
Proof. intros s. reflexivity. Qed.
Lemma sanitize_two : forall a b, sanitize [a; b] = (escape_identifier a ++ "." ++ escape_identifier b)%string.
Proof. intros a b. reflexivity. Qed.
Ltac chars_ := unfold nl, tab.
Ltac step :=
  match goal with
  | |- context [read_from Out (escape_identifier ?n ++ "." ++ ?r)%string] => change (escape_identifier n ++ "." ++ r)%string with (escape_identifier n ++ String "." r)%string; rewrite (name_dot n r) by auto
  | |- context [read_from Out (?s ++ ?r)%string] =>
     lazymatch s with
     | escape_identifier ?n => rewrite (name_R n r) by first [split; assumption | reflexivity]
     | String _ _ => first [erewrite (scan_read s Out _ Out r) by (vm_compute; reflexivity) | erewrite (run s Out _ r) by first [vm_compute; reflexivity | reflexivity]]
     end
  end.
Lemma metadata_says : forall o, fo_meta_schema o <> "" -> nul_free (fo_meta_schema o) -> fo_meta_table o <> "" -> nul_free (fo_meta_table o) ->
  let t := [SName (fo_meta_schema o); SSym "."; SName (fo_meta_table o)] in
  sql_read (metadata_sql o) = Some (
    [SWord "CREATE"; SWord "SCHEMA"; SName (fo_meta_schema o); SWord "CREATE"; SWord "TABLE"] ++ t ++
    [SSym "("; SWord "DB_CREATED_AT"; SWord "TIMESTAMPTZ"; SWord "NOT"; SWord "NULL"; SWord "DEFAULT"; SWord "CURRENT_TIMESTAMP"; SSym ")"; SSym ";";
     SWord "INSERT"; SWord "INTO"] ++ t ++ [SWord "DEFAULT"; SWord "VALUES"; SSym ";"]).
Proof.
  intros o S1 S2 T1 T2 t. unfold metadata_sql. rewrite sanitize_one, sanitize_two. cbv zeta. unfold sql_read. rewrite !sapp_assoc.
  repeat (chars_; step). rewrite ?after_app. reflexivity.
Qed.
Lemma create_run : forall w o h db t, create w o h = (Val db, t) -> exists u sql a b c d e f g x y,
  t = [(CUuid, ROk u); (CConn PRoot, ROk a); (CExec PRoot "SET SESSION statement_timeout = 3000;", ROk b);
       (CExec PRoot ("CREATE DATABASE " ++ db ++ " TEMPLATE template0;"), ROk c); (CMakePool (PTemp db) db, ROk d); (CConn (PTemp db), ROk e);
       (CExec (PTemp db) "SET SESSION statement_timeout = 3000;", ROk f); (CPoolQuery (PTemp db) "SELECT current_database();", ROk db);
       (CConnClose (PTemp db), x); (CPoolExec (PTemp db) sql, ROk g); (CConnClose PRoot, y)]%string /\ db = (fo_prefix o ++ dashes u)%string /\
  forall ms mt, ms = fo_meta_schema o -> mt = fo_meta_table o -> ms <> "" -> nul_free ms -> mt <> "" -> nul_free mt ->
  sql_read sql = Some
    [SWord "CREATE"; SWord "SCHEMA"; SName ms; SWord "CREATE"; SWord "TABLE"; SName ms; SSym "."; SName mt;
     SSym "("; SWord "DB_CREATED_AT"; SWord "TIMESTAMPTZ"; SWord "NOT"; SWord "NULL"; SWord "DEFAULT"; SWord "CURRENT_TIMESTAMP"; SSym ")"; SSym ";";
     SWord "INSERT"; SWord "INTO"; SName ms; SSym "."; SName mt; SWord "DEFAULT"; SWord "VALUES"; SSym ";"].
Proof.
  intros w o h db t H. apply create_calls in H. destruct H as (u & a & b & c & d & e & f & g & x & y & H & E). exists u, (metadata_sql o), a, b, c, d, e, f, g, x, y.
  split; [exact H|]. split; [exact E|]. intros ms mt -> -> A B C D. exact (metadata_says o A B C D).
Qed.
