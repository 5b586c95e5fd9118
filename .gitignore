.nra.cache
.lia.cache
.psatz.cache
.nia.cache
__pycache__/
