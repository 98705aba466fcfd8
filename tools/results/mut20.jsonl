{"failed_lemmas": ["ContainersP.det_rows", "ContainersP.placing_ok"], "theorems_failed": ["C314_a_placed_point", "C314_the_placing_frame", "C314_what_placing_does", "C314_when_it_fails", "C315_frames_elsewhere_refuted", "C315_the_displacement", "C316_the_points_of_an_assembly"], "statement_broken": [], "secs": 65, "id": "co1"}
{"failed_lemmas": ["ContainersP.placing_ok", "ContainersP.placing_total", "ContainersP.placing_err"], "theorems_failed": ["C314_a_placed_point", "C314_the_placing_frame", "C314_what_placing_does", "C314_when_it_fails", "C315_the_displacement", "C316_the_points_of_an_assembly"], "statement_broken": [], "secs": 46, "id": "co2"}
{"failed_lemmas": ["ContainersP.placing_ok", "ContainersP.placing_total", "ContainersP.placing_err", "ContainersP.misplaced"], "theorems_failed": ["C314_a_placed_point", "C314_the_placing_frame", "C314_what_placing_does", "C314_when_it_fails", "C315_frames_elsewhere_refuted", "C315_the_displacement", "C316_the_points_of_an_assembly"], "statement_broken": [], "secs": 37, "id": "co3"}
{"failed_lemmas": ["ContainersP.placing_ok", "ContainersP.misplaced"], "theorems_failed": ["C314_a_placed_point", "C314_the_placing_frame", "C314_what_placing_does", "C315_frames_elsewhere_refuted", "C315_the_displacement", "C316_the_points_of_an_assembly"], "statement_broken": [], "secs": 54, "id": "co4"}
{"failed_lemmas": ["ContainersP.placing_ok"], "theorems_failed": ["C314_a_placed_point", "C314_the_placing_frame", "C314_what_placing_does", "C315_the_displacement", "C316_the_points_of_an_assembly"], "statement_broken": [], "secs": 60, "id": "co5"}
{"failed_lemmas": ["ContainersP.placing_ok", "ContainersP.misplaced"], "theorems_failed": ["C314_a_placed_point", "C314_the_placing_frame", "C314_what_placing_does", "C315_frames_elsewhere_refuted", "C315_the_displacement", "C316_the_points_of_an_assembly"], "statement_broken": [], "secs": 57, "id": "co6"}
