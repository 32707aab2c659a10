__pycache__
.lia.cache
__pycache__/
