{"definition": "MFloat.ZETA_LOG_FLOATS", "edit": "`84` -> `85` in `3116172968, 82); (4503615286221234, 83); (4503610066429005, 84); (4503606586655232, 85); (4503604266`", "claim": "C54: Counting functions with the real estimates", "failed": ["C54_table_literals"], "tightened": []}
{"definition": "MFloat.ZETA_LOG_FLOATS", "edit": "`4691314049487571` -> `4691314049487572` in `01, 57); (4955944806412528, 58); (4793049200301691, 59); (4691314049487571, 60); (4626394302754257, 61); (458438`", "claim": "C54: Counting functions with the real estimates", "failed": ["C54_table_literals"], "tightened": []}
{"definition": "MFloat.ZETA_LOG_DECIMALS", "edit": "`28` -> `29` in `2460562789788238511994034, 28); (1227058189115578395490813, 28); (6124625946826462580263595, 29); (3`", "claim": "C54: Counting functions with the real estimates", "failed": ["C54_table_literals"], "tightened": []}
{"definition": "MPi.lru_remove", "edit": "`negb ` -> `` in `ru_remove (c : lru) (k : Z * Z) : lru := filter (fun e => negb (key_eqb (fst e) k)) c. (** [cache.get(&`", "claim": "C08: prime_phi is Legendre's partial sieve function whatever the cache evicts", "failed": ["C08_cache_get", "C08_cache_put", "C08_cache_put_new"], "tightened": [], "note": "repeat after the theorems about the cache by itself were added; the build stopped at the lemma PropCache.remove_absent"}
