(** Generated from httpolice/known/*.csv: what the checks look up about methods,
    status codes, media types and products.  Columns that no check reads are
    left out. *)
From Coq Require Import String.
From Verif Require Import Base.
Local Open Scope list_scope.
Unset Strict Implicit.

(** A row of method.csv (httpolice/known/__init__.py:244-258). *)
Record method_info := MInfo { mk_key : str; mk_cacheable : option bool; mk_defines_body : option bool; mk_safe : option bool }.
(** httpolice/known/method.csv *)
Definition method_table : list method_info := [
  MInfo (s "ACL") None None (Some false);
  MInfo (s "BASELINE-CONTROL") None None (Some false);
  MInfo (s "BIND") None None (Some false);
  MInfo (s "CHECKIN") None None (Some false);
  MInfo (s "CHECKOUT") None None (Some false);
  MInfo (s "CONNECT") (Some false) (Some false) (Some false);
  MInfo (s "COPY") None None (Some false);
  MInfo (s "DELETE") (Some false) (Some false) (Some false);
  MInfo (s "GET") (Some true) (Some false) (Some true);
  MInfo (s "HEAD") (Some true) (Some false) (Some true);
  MInfo (s "LABEL") None None (Some false);
  MInfo (s "LINK") None None (Some false);
  MInfo (s "LOCK") None None (Some false);
  MInfo (s "MERGE") None None (Some false);
  MInfo (s "MKACTIVITY") None None (Some false);
  MInfo (s "MKCALENDAR") None None (Some false);
  MInfo (s "MKCOL") None None (Some false);
  MInfo (s "MKREDIRECTREF") None None (Some false);
  MInfo (s "MKWORKSPACE") None None (Some false);
  MInfo (s "MOVE") None None (Some false);
  MInfo (s "OPTIONS") (Some false) None (Some true);
  MInfo (s "ORDERPATCH") None None (Some false);
  MInfo (s "PATCH") (Some false) (Some true) (Some false);
  MInfo (s "POST") (Some true) (Some true) (Some false);
  MInfo (s "PRI") None None (Some true);
  MInfo (s "PROPFIND") None (Some true) (Some true);
  MInfo (s "PROPPATCH") None None (Some false);
  MInfo (s "PUT") (Some false) (Some true) (Some false);
  MInfo (s "REBIND") None None (Some false);
  MInfo (s "REPORT") None None (Some true);
  MInfo (s "SEARCH") None None (Some true);
  MInfo (s "TRACE") (Some false) (Some false) (Some true);
  MInfo (s "UNBIND") None None (Some false);
  MInfo (s "UNCHECKOUT") None None (Some false);
  MInfo (s "UNLINK") None None (Some false);
  MInfo (s "UNLOCK") None None (Some false);
  MInfo (s "UPDATE") None None (Some false);
  MInfo (s "UPDATEREDIRECTREF") None None (Some false);
  MInfo (s "VERSION-CONTROL") None None (Some false)].

(** [Cacheable] (httpolice/known/__init__.py:264-267). *)
Inductive cacheable := NotAtAll | NotByDefault | ByDefault.
(** httpolice/known/status_code.csv: the codes that have a value there. *)
Definition status_table : list (Z * cacheable) := [
  (100%Z, NotByDefault);
  (101%Z, NotByDefault);
  (200%Z, ByDefault);
  (201%Z, NotByDefault);
  (202%Z, NotByDefault);
  (203%Z, ByDefault);
  (204%Z, ByDefault);
  (205%Z, NotByDefault);
  (206%Z, ByDefault);
  (300%Z, ByDefault);
  (301%Z, ByDefault);
  (302%Z, NotByDefault);
  (303%Z, NotByDefault);
  (307%Z, NotByDefault);
  (308%Z, ByDefault);
  (400%Z, NotByDefault);
  (401%Z, NotByDefault);
  (403%Z, NotByDefault);
  (404%Z, ByDefault);
  (405%Z, ByDefault);
  (406%Z, NotByDefault);
  (407%Z, NotByDefault);
  (408%Z, NotByDefault);
  (409%Z, NotByDefault);
  (410%Z, ByDefault);
  (411%Z, NotByDefault);
  (412%Z, NotByDefault);
  (413%Z, NotByDefault);
  (414%Z, ByDefault);
  (415%Z, NotByDefault);
  (416%Z, NotByDefault);
  (417%Z, NotByDefault);
  (421%Z, ByDefault);
  (422%Z, NotByDefault);
  (423%Z, NotByDefault);
  (424%Z, NotByDefault);
  (426%Z, NotByDefault);
  (428%Z, NotAtAll);
  (429%Z, NotAtAll);
  (431%Z, NotAtAll);
  (451%Z, ByDefault);
  (500%Z, NotByDefault);
  (501%Z, ByDefault);
  (502%Z, NotByDefault);
  (503%Z, NotByDefault);
  (504%Z, NotByDefault);
  (505%Z, NotByDefault);
  (507%Z, NotByDefault);
  (511%Z, NotAtAll)].

(** A row of media_type.csv (httpolice/known/__init__.py:311-332). *)
Record media_info := TInfo { tk_key : str; tk_deprecated : bool; tk_is_json : bool; tk_is_xml : bool; tk_patch : option bool }.
(** httpolice/known/media_type.csv: the rows that say something; looking up
    another row gives the same as looking up an unknown name. *)
Definition media_table : list media_info := [
  TInfo (s "application/font-sfnt") true false false None;
  TInfo (s "application/font-woff") true false false None;
  TInfo (s "application/json") false true false (Some false);
  TInfo (s "application/json-patch+json") false false false (Some true);
  TInfo (s "application/merge-patch+json") false false false (Some true);
  TInfo (s "application/smil") true false false None;
  TInfo (s "application/x-www-form-urlencoded") false false false (Some false);
  TInfo (s "application/xml") false false true (Some false);
  TInfo (s "application/xml-patch+xml") false false false (Some true);
  TInfo (s "image/x-emf") true false false None;
  TInfo (s "image/x-wmf") true false false None;
  TInfo (s "message/news") true false false None;
  TInfo (s "text/directory") true false false None;
  TInfo (s "text/ecmascript") true false false None;
  TInfo (s "text/event-stream") false false false (Some false);
  TInfo (s "text/html") false false false (Some false);
  TInfo (s "text/javascript") true false false None;
  TInfo (s "text/plain") false false false (Some false);
  TInfo (s "text/xml") false false true (Some false)].

(** httpolice/known/product.csv: the products that are libraries. *)
Definition library_table : list str := [
  (s "Apache-HttpAsyncClient");
  (s "Apache-HttpClient");
  (s "CFNetwork");
  (s "CPython");
  (s "Dalvik");
  (s "Darwin");
  (s "Go-http-client");
  (s "Java");
  (s "Linux");
  (s "OpenSSL");
  (s "PHP");
  (s "PyPy");
  (s "PycURL");
  (s "Python-urllib");
  (s "Ruby");
  (s "android-async-http");
  (s "hyper");
  (s "libcurl");
  (s "libidn");
  (s "libsoup");
  (s "libwww-perl");
  (s "lua-http");
  (s "nghttp2");
  (s "okhttp");
  (s "php-requests");
  (s "python-requests");
  (s "zlib")].
