{"failed_lemmas": [], "theorems_failed": [], "statement_broken": [], "secs": 1, "id": "ge15"}
