(** plugins/MySQL.cpp 712-1015 [g_MySQLVariables]: the names and values given for the variables of a MySQL server.  [VERSION] is
    made by the build. *)
From Verif Require Import Base.
Definition mysqlVersion : bytes := lit "5.1.73-log".
Definition g_MySQLVariables (VERSION : bytes) : list (bytes * bytes) :=
  [(lit "auto_increment_increment", lit "1");
   (lit "auto_increment_offset", lit "1");
   (lit "autocommit", lit "ON");
   (lit "automatic_sp_privileges", lit "ON");
   (lit "back_log", lit "50");
   (lit "basedir", lit "/rdsdbbin/mysql-5.1.73a.R1/");
   (lit "big_tables", lit "OFF");
   (lit "binlog_cache_size", lit "32768");
   (lit "binlog_direct_non_transactional_updates", lit "OFF");
   (lit "binlog_format", lit "MIXED");
   (lit "bulk_insert_buffer_size", lit "8388608");
   (lit "character_set_client", lit "latin1");
   (lit "character_set_connection", lit "latin1");
   (lit "character_set_database", lit "utf8");
   (lit "character_set_filesystem", lit "binary");
   (lit "character_set_results", lit "latin1");
   (lit "character_set_server", lit "latin1");
   (lit "character_set_system", lit "utf8");
   (lit "character_sets_dir", lit "/rdsdbbin/mysql-5.1.73a.R1/share/mysql/charsets/");
   (lit "collation_connection", lit "latin1_swedish_ci");
   (lit "collation_database", lit "utf8_unicode_ci");
   (lit "collation_server", lit "latin1_swedish_ci");
   (lit "completion_type", lit "0");
   (lit "concurrent_insert", lit "1");
   (lit "connect_timeout", lit "15");
   (lit "datadir", lit "/rdsdbdata/db/");
   (lit "date_format", lit "%Y-%m-%d");
   (lit "datetime_format", lit "%Y-%m-%d %H:%i:%s");
   (lit "default_week_format", lit "0");
   (lit "delay_key_write", lit "ON");
   (lit "delayed_insert_limit", lit "100");
   (lit "delayed_insert_timeout", lit "300");
   (lit "delayed_queue_size", lit "1000");
   (lit "div_precision_increment", lit "4");
   (lit "engine_condition_pushdown", lit "ON");
   (lit "error_count", lit "0");
   (lit "event_scheduler", lit "OFF");
   (lit "expire_logs_days", lit "0");
   (lit "flush", lit "OFF");
   (lit "flush_time", lit "0");
   (lit "foreign_key_checks", lit "ON");
   (lit "ft_boolean_syntax", lit "+ -><()~*:&|");
   (lit "ft_max_word_len", lit "84");
   (lit "ft_min_word_len", lit "4");
   (lit "ft_query_expansion_limit", lit "20");
   (lit "ft_stopword_file", lit "(built-in)");
   (lit "general_log", lit "OFF");
   (lit "general_log_file", lit "/rdsdbdata/log/general/mysql-general.log");
   (lit "group_concat_max_len", lit "1024");
   (lit "have_community_features", lit "YES");
   (lit "have_compress", lit "YES");
   (lit "have_crypt", lit "YES");
   (lit "have_csv", lit "YES");
   (lit "have_dynamic_loading", lit "YES");
   (lit "have_geometry", lit "YES");
   (lit "have_innodb", lit "YES");
   (lit "have_ndbcluster", lit "NO");
   (lit "have_openssl", lit "YES");
   (lit "have_partitioning", lit "YES");
   (lit "have_query_cache", lit "YES");
   (lit "have_rtree_keys", lit "YES");
   (lit "have_ssl", lit "YES");
   (lit "have_symlink", lit "YES");
   (lit "hostname", lit "ip-10-178-20-210");
   (lit "identity", lit "0");
   (lit "ignore_builtin_innodb", lit "ON");
   (lit "init_connect", lit "");
   (lit "init_file", lit "");
   (lit "init_slave", lit "");
   (lit "innodb_adaptive_flushing", lit "ON");
   (lit "innodb_adaptive_hash_index", lit "ON");
   (lit "innodb_additional_mem_pool_size", lit "2097152");
   (lit "innodb_autoextend_increment", lit "8");
   (lit "innodb_autoinc_lock_mode", lit "1");
   (lit "innodb_buffer_pool_size", lit "11674845184");
   (lit "innodb_change_buffering", lit "inserts");
   (lit "innodb_checksums", lit "ON");
   (lit "innodb_commit_concurrency", lit "0");
   (lit "innodb_concurrency_tickets", lit "500");
   (lit "innodb_data_file_path", lit "ibdata1:10M:autoextend");
   (lit "innodb_data_home_dir", lit "/rdsdbdata/db/innodb");
   (lit "innodb_doublewrite", lit "ON");
   (lit "innodb_fast_shutdown", lit "1");
   (lit "innodb_file_format", lit "Antelope");
   (lit "innodb_file_format_check", lit "Barracuda");
   (lit "innodb_file_per_table", lit "ON");
   (lit "innodb_flush_log_at_trx_commit", lit "0");
   (lit "innodb_flush_method", lit "O_DIRECT");
   (lit "innodb_force_recovery", lit "0");
   (lit "innodb_io_capacity", lit "200");
   (lit "innodb_lock_wait_timeout", lit "50");
   (lit "innodb_locks_unsafe_for_binlog", lit "OFF");
   (lit "innodb_log_buffer_size", lit "8388608");
   (lit "innodb_log_file_size", lit "134217728");
   (lit "innodb_log_files_in_group", lit "2");
   (lit "innodb_log_group_home_dir", lit "/rdsdbdata/log/innodb");
   (lit "innodb_max_dirty_pages_pct", lit "75");
   (lit "innodb_max_purge_lag", lit "0");
   (lit "innodb_mirrored_log_groups", lit "1");
   (lit "innodb_old_blocks_pct", lit "37");
   (lit "innodb_old_blocks_time", lit "0");
   (lit "innodb_open_files", lit "300");
   (lit "innodb_random_read_ahead", lit "OFF");
   (lit "innodb_read_ahead_threshold", lit "56");
   (lit "innodb_read_io_threads", lit "4");
   (lit "innodb_replication_delay", lit "0");
   (lit "innodb_rollback_on_timeout", lit "OFF");
   (lit "innodb_spin_wait_delay", lit "6");
   (lit "innodb_stats_method", lit "nulls_equal");
   (lit "innodb_stats_on_metadata", lit "ON");
   (lit "innodb_stats_sample_pages", lit "8");
   (lit "innodb_strict_mode", lit "OFF");
   (lit "innodb_support_xa", lit "ON");
   (lit "innodb_sync_spin_loops", lit "30");
   (lit "innodb_table_locks", lit "ON");
   (lit "innodb_thread_concurrency", lit "0");
   (lit "innodb_thread_sleep_delay", lit "10000");
   (lit "innodb_use_sys_malloc", lit "ON");
   (lit "innodb_version", lit "5.1.73");
   (lit "innodb_write_io_threads", lit "4");
   (lit "insert_id", lit "0");
   (lit "interactive_timeout", lit "28800");
   (lit "join_buffer_size", lit "131072");
   (lit "keep_files_on_create", lit "OFF");
   (lit "key_buffer_size", lit "16777216");
   (lit "key_cache_age_threshold", lit "300");
   (lit "key_cache_block_size", lit "1024");
   (lit "key_cache_division_limit", lit "100");
   (lit "language", lit "/rdsdbbin/mysql/share/mysql/english/");
   (lit "large_files_support", lit "ON");
   (lit "large_page_size", lit "0");
   (lit "large_pages", lit "OFF");
   (lit "last_insert_id", lit "0");
   (lit "lc_time_names", lit "en_US");
   (lit "license", lit "GPL");
   (lit "local_infile", lit "ON");
   (lit "locked_in_memory", lit "OFF");
   (lit "log", lit "OFF");
   (lit "log_bin", lit "ON");
   (lit "log_bin_trust_function_creators", lit "ON");
   (lit "log_bin_trust_routine_creators", lit "ON");
   (lit "log_error", lit "/rdsdbdata/log/error/mysql-error.log");
   (lit "log_output", lit "TABLE");
   (lit "log_queries_not_using_indexes", lit "OFF");
   (lit "log_slave_updates", lit "OFF");
   (lit "log_slow_queries", lit "ON");
   (lit "log_warnings", lit "1");
   (lit "long_query_time", lit "10.000000");
   (lit "low_priority_updates", lit "OFF");
   (lit "lower_case_file_system", lit "OFF");
   (lit "lower_case_table_names", lit "0");
   (lit "max_allowed_packet", lit "5242880");
   (lit "max_binlog_cache_size", lit "18446744073709547520");
   (lit "max_binlog_size", lit "134217728");
   (lit "max_connect_errors", lit "1000000000");
   (lit "max_connections", lit "1500");
   (lit "max_delayed_threads", lit "20");
   (lit "max_error_count", lit "64");
   (lit "max_heap_table_size", lit "16777216");
   (lit "max_insert_delayed_threads", lit "20");
   (lit "max_join_size", lit "18446744073709551615");
   (lit "max_length_for_sort_data", lit "1024");
   (lit "max_long_data_size", lit "5242880");
   (lit "max_prepared_stmt_count", lit "16382");
   (lit "max_relay_log_size", lit "0");
   (lit "max_seeks_for_key", lit "18446744073709551615");
   (lit "max_sort_length", lit "1024");
   (lit "max_sp_recursion_depth", lit "0");
   (lit "max_tmp_tables", lit "32");
   (lit "max_user_connections", lit "600");
   (lit "max_write_lock_count", lit "18446744073709551615");
   (lit "min_examined_row_limit", lit "0");
   (lit "multi_range_count", lit "256");
   (lit "myisam_data_pointer_size", lit "6");
   (lit "myisam_max_sort_file_size", lit "9223372036853727232");
   (lit "myisam_mmap_size", lit "18446744073709551615");
   (lit "myisam_recover_options", lit "OFF");
   (lit "myisam_repair_threads", lit "1");
   (lit "myisam_sort_buffer_size", lit "8388608");
   (lit "myisam_stats_method", lit "nulls_unequal");
   (lit "myisam_use_mmap", lit "OFF");
   (lit "net_buffer_length", lit "16384");
   (lit "net_read_timeout", lit "30");
   (lit "net_retry_count", lit "10");
   (lit "net_write_timeout", lit "60");
   (lit "new", lit "OFF");
   (lit "old", lit "OFF");
   (lit "old_alter_table", lit "OFF");
   (lit "old_passwords", lit "OFF");
   (lit "open_files_limit", lit "65535");
   (lit "optimizer_prune_level", lit "1");
   (lit "optimizer_search_depth", lit "62");
   (lit "optimizer_switch", lit "index_merge=on,index_merge_union=on,index_merge_sort_union=on,index_merge_intersection=on");
   (lit "pid_file", lit "/rdsdbdata/log/mysql-3306.pid");
   (lit "plugin_dir", lit "/rdsdbbin/mysql/lib/mysql/plugin");
   (lit "port", lit "3306");
   (lit "preload_buffer_size", lit "32768");
   (lit "profiling", lit "OFF");
   (lit "profiling_history_size", lit "15");
   (lit "protocol_version", lit "10");
   (lit "pseudo_thread_id", lit "26810995");
   (lit "query_alloc_block_size", lit "8192");
   (lit "query_cache_limit", lit "1048576");
   (lit "query_cache_min_res_unit", lit "4096");
   (lit "query_cache_size", lit "0");
   (lit "query_cache_type", lit "ON");
   (lit "query_cache_wlock_invalidate", lit "OFF");
   (lit "query_prealloc_size", lit "8192");
   (lit "rand_seed1", lit "");
   (lit "rand_seed2", lit "");
   (lit "range_alloc_block_size", lit "4096");
   (lit "read_buffer_size", lit "262144");
   (lit "read_only", lit "OFF");
   (lit "read_rnd_buffer_size", lit "524288");
   (lit "relay_log", lit "/rdsdbdata/log/relaylog/relaylog");
   (lit "relay_log_index", lit "");
   (lit "relay_log_info_file", lit "relay-log.info");
   (lit "relay_log_purge", lit "ON");
   (lit "relay_log_space_limit", lit "0");
   (lit "report_host", lit "");
   (lit "report_password", lit "");
   (lit "report_port", lit "3306");
   (lit "report_user", lit "");
   (lit "rpl_recovery_rank", lit "0");
   (lit "secure_auth", lit "OFF");
   (lit "secure_file_priv", lit "/tmp/");
   (lit "server_id", lit "973870556");
   (lit "skip_external_locking", lit "ON");
   (lit "skip_name_resolve", lit "OFF");
   (lit "skip_networking", lit "OFF");
   (lit "skip_show_database", lit "OFF");
   (lit "slave_compressed_protocol", lit "OFF");
   (lit "slave_exec_mode", lit "STRICT");
   (lit "slave_load_tmpdir", lit "/rdsdbdata/tmp");
   (lit "slave_max_allowed_packet", lit "1073741824");
   (lit "slave_net_timeout", lit "3600");
   (lit "slave_skip_errors", lit "OFF");
   (lit "slave_transaction_retries", lit "10");
   (lit "slow_launch_time", lit "2");
   (lit "slow_query_log", lit "ON");
   (lit "slow_query_log_file", lit "/rdsdbdata/log/slowquery/mysql-slowquery.log");
   (lit "socket", lit "/tmp/mysql.sock");
   (lit "sort_buffer_size", lit "2097144");
   (lit "sql_auto_is_null", lit "ON");
   (lit "sql_big_selects", lit "ON");
   (lit "sql_big_tables", lit "OFF");
   (lit "sql_buffer_result", lit "OFF");
   (lit "sql_log_bin", lit "ON");
   (lit "sql_log_off", lit "OFF");
   (lit "sql_log_update", lit "ON");
   (lit "sql_low_priority_updates", lit "OFF");
   (lit "sql_max_join_size", lit "18446744073709551615");
   (lit "sql_mode", lit "");
   (lit "sql_notes", lit "ON");
   (lit "sql_quote_show_create", lit "ON");
   (lit "sql_safe_updates", lit "OFF");
   (lit "sql_select_limit", lit "18446744073709551615");
   (lit "sql_slave_skip_counter", lit "");
   (lit "sql_warnings", lit "OFF");
   (lit "ssl_ca", lit "/rdsdbdata/rds-metadata/ca-cert.pem");
   (lit "ssl_capath", lit "");
   (lit "ssl_cert", lit "/rdsdbdata/rds-metadata/server-cert.pem");
   (lit "ssl_cipher", lit "EXP1024-RC4-SHA:EXP1024-DES-CBC-SHA:AES256-SHA:AES128-SHA:DES-CBC3-SHA:DES-CBC-SHA:EXP-DES-CBC-SHA:EXP-RC2-CBC-MD5:RC4-SHA:RC4-MD5:EXP-RC4-MD5:NULL-SHA:NULL-MD5:DES-CBC3-MD5:DES-CBC-MD5:EXP-RC2-CBC-MD5:RC2-CBC-MD5:EXP-RC4-MD5:RC4-MD5:KRB5-DES-CBC3-MD5:KRB5-DES-CBC3-SHA:ADH-DES-CBC3-SHA:EDH-RSA-DES-CBC3-SHA:EDH-DSS-DES-CBC3-SHA:ADH-AES256-SHA:DHE-RSA-AES256-SHA:DHE-DSS-AES256-SHA:ADH-AES128-SHA:DHE-RSA-AES128-SHA:DHE-DSS-AES128-SHA:EXP-KRB5-RC4-MD5:EXP-KRB5-RC2-CBC-MD5:EXP-KRB5-DES-CBC-MD5:KRB5-RC4-MD5:KRB5-DES-CBC-MD5:ADH-RC4-MD5:EXP-ADH-RC4-MD5:DHE-DSS-RC4-SHA:EXP1024-DHE-DSS-RC4-SHA:EXP1024-DHE-DSS-DES-CBC-SHA:EXP-KRB5-RC4-SHA:EXP-KRB5-RC2-CBC-SHA:EXP-KRB5-DES-CBC-SHA:KRB5-RC4-SHA:KRB5-DES-CBC-SHA:ADH-DES-CBC-SHA:EXP-ADH-DES-CBC-SHA:EDH-RSA-DES-CBC-SHA:EXP-EDH-RSA-DES-CBC-SHA:EDH-DSS-DES-CBC-SHA:EXP-EDH-DSS-DES-CBC-SHA");
   (lit "ssl_key", lit "/rdsdbdata/rds-metadata/server-key.pem");
   (lit "storage_engine", lit "InnoDB");
   (lit "sync_binlog", lit "0");
   (lit "sync_frm", lit "ON");
   (lit "system_time_zone", lit "UTC");
   (lit "table_definition_cache", lit "256");
   (lit "table_lock_wait_timeout", lit "50");
   (lit "table_open_cache", lit "96");
   (lit "table_type", lit "InnoDB");
   (lit "thread_cache_size", lit "0");
   (lit "thread_handling", lit "one-thread-per-connection");
   (lit "thread_stack", lit "196608");
   (lit "time_format", lit "%H:%i:%s");
   (lit "time_zone", lit "UTC");
   (lit "timed_mutexes", lit "OFF");
   (lit "timestamp", lit "1454813864");
   (lit "tmp_table_size", lit "16777216");
   (lit "tmpdir", lit "/rdsdbdata/tmp");
   (lit "transaction_alloc_block_size", lit "8192");
   (lit "transaction_prealloc_size", lit "4096");
   (lit "tx_isolation", lit "REPEATABLE-READ");
   (lit "unique_checks", lit "ON");
   (lit "updatable_views_with_limit", lit "YES");
   (lit "version", mysqlVersion);
   (lit "version_comment", VERSION);
   (lit "version_compile_machine", lit "x86_64");
   (lit "version_compile_os", lit "unknown-linux-gnu");
   (lit "wait_timeout", lit "28800");
   (lit "warning_count", lit "0")].
